(** Proofs about heater threads (C39, C42-C45, C63). *)
From Coq Require Import ZArith Bool List Lia.
From Verif Require Import PyBase PyNum Config Coordinates GMachine Pid Heater.
From Coq Require Import List.
Import ListNotations.

Section HP.
Context {N : PyNum}.
Variable gains : heater_id -> N * N * N.
Variable reading : N -> Prop.
Variable clock : N -> Prop.
Notation step := (step gains reading clock).
Notation steps := (steps gains reading clock).
Notation reachable := (reachable gains reading clock).
Notation sys := (sys N).

Lemma steps_trans s1 s2 s3 : steps s1 s2 -> steps s2 s3 -> steps s1 s3.
Proof. intros H1 H2. induction H2; [exact H1|]. econstructor; eassumption. Qed.
Lemma steps_one s1 s2 : step s1 s2 -> steps s1 s2.
Proof. intros H. econstructor; [constructor|exact H]. Qed.
Lemma steps_cons s1 s2 s3 : step s1 s2 -> steps s2 s3 -> steps s1 s3.
Proof. intros H1 H2. eapply steps_trans; [apply steps_one, H1|exact H2]. Qed.
Lemma reachable_steps s s' : reachable s -> steps s s' -> reachable s'.
Proof. intros [p H] H2. exists p. eapply steps_trans; eassumption. Qed.

Lemma upd_same f k h : upd (N:=N) f k h k = h.
Proof. unfold upd. now rewrite Nat.eqb_refl. Qed.
Lemma upd_other f k h j : j <> k -> upd (N:=N) f k h j = f j.
Proof. intros H. unfold upd. destruct (Nat.eqb_spec j k); [contradiction|reflexivity]. Qed.
Lemma upd_rec_same f h v : upd_rec f h v h = v.
Proof. destruct h; reflexivity. Qed.
Lemma upd_rec_other f h v j : j <> h -> upd_rec f h v j = f j.
Proof. destruct h, j; try reflexivity; intros H; now contradiction H. Qed.

(** Induction over reachable states. *)
Lemma reach_ind (P : sys -> Prop) : (forall p, P (sys0 p)) -> (forall s s', P s -> step s s' -> P s') ->
  forall s, reachable s -> P s.
Proof. intros H0 H1 s [p H]. induction H; [apply H0|]. eapply H1; eassumption. Qed.
Lemma steps_ind_from (P : sys -> Prop) : (forall s s', P s -> step s s' -> P s') ->
  forall s s', steps s s' -> P s -> P s'.
Proof. intros H1 s s' H. induction H as [|s1 s2 H IH Hs]; intros Hp; [exact Hp|]. eapply H1; [apply IH, Hp|exact Hs]. Qed.

(** The thread is inside of the part guarded by its mutex. *)
Definition busy (p : hpc N) : bool :=
  match p with HCheck | HMeasure | HAdc | HFail | HFailTime | HControl _ | HRelease => true | _ => false end.
(** Past the test of _is_run, so that it may still send power. *)
Definition armed (p : hpc N) : bool :=
  match p with HMeasure | HAdc | HFail | HFailTime | HControl _ | HRelease | HNone => true | _ => false end.
Definition stopping (m : mpc) (k : nat) : Prop :=
  m = MStopAcq k \/ m = MStopSet k \/ m = MStopRel k \/ m = MStopOff k.
Definition stop_done (s : sys) (k : nat) : Prop := In (StopReturned k) (s_log s).

Record inv (s : sys) : Prop := {
  i_fresh : forall k, s_next s <= k -> h_pc (s_heaters s k) = HNone /\ h_lock (s_heaters s k) = None /\ h_run (s_heaters s k) = true;
  i_made : forall k, h_pc (s_heaters s k) = HNone -> s_next s <= k;
  i_busy : forall k, busy (h_pc (s_heaters s k)) = true -> h_lock (s_heaters s k) = Some (THeat k);
  i_dead : forall k, h_pc (s_heaters s k) = HDead -> h_lock (s_heaters s k) = Some (THeat k);
  i_own : forall k j, h_lock (s_heaters s k) = Some (THeat j) -> j = k;
  i_main1 : forall k, h_lock (s_heaters s k) = Some TMain -> s_main s = MStopSet k \/ s_main s = MStopRel k;
  i_main2 : forall k, s_main s = MStopSet k \/ s_main s = MStopRel k -> h_lock (s_heaters s k) = Some TMain;
  i_off : forall k, s_main s = MStopRel k \/ s_main s = MStopOff k \/ stop_done s k ->
            h_run (s_heaters s k) = false /\ armed (h_pc (s_heaters s k)) = false;
  i_rec : forall h k, s_rec s h = Some k -> ~ stop_done s k /\ h_id (s_heaters s k) = h /\ k < s_next s;
  i_stop : forall k, stopping (s_main s) k -> s_rec s (h_id (s_heaters s k)) = Some k;
  i_new : forall k, s_main s = MMeasure (Some k) \/ s_main s = MAdc (Some k) ->
            ~ stop_done s k /\ s_rec s (h_id (s_heaters s k)) = None /\ k < s_next s;
  i_quiet : forall k l1 l2, s_log s = l1 ++ StopReturned k :: l2 ->
            (forall b p, ~ In (Power k b p) l1) /\ exists l3, l2 = Power k true zero :: l3
}.

Lemma inv0 p : inv (sys0 p).
Proof.
  split; cbn; unfold stop_done, stopping; cbn; intros; try discriminate; try lia; auto;
    repeat match goal with H : _ \/ _ |- _ => destruct H end; try discriminate; try contradiction.
  destruct l1; discriminate.
Qed.

Ltac heq j k := destruct (Nat.eq_dec j k) as [->|?]; [rewrite ?upd_same in *|rewrite ?(upd_other _ k _ j) in * by assumption].

Lemma quiet_more (P : nat -> Prop) (log l : list (happening N)) :
  (forall k l1 l2, log = l1 ++ StopReturned k :: l2 ->
     (forall b p, ~ In (Power k b p) l1) /\ exists l3, l2 = Power k true zero :: l3) ->
  (forall k, ~ In (StopReturned k) l) ->
  (forall k b p, In (Power k b p) l -> ~ In (StopReturned k) log) ->
  forall k l1 l2, l ++ log = l1 ++ StopReturned k :: l2 ->
     (forall b p, ~ In (Power k b p) l1) /\ exists l3, l2 = Power k true zero :: l3.
Proof.
  intros Q HS HP k l1 l2 E. apply app_eq_app in E. destruct E as (d & [[E1 E2]|[E1 E2]]).
  - destruct d as [|x d].
    + cbn in E2. destruct (Q k [] l2 (eq_sym E2)) as [_ Q2]. split; [|exact Q2]. rewrite app_nil_r in E1. subst l1.
      intros b p Hi. apply HP in Hi. apply Hi. rewrite <- E2. now left.
    + injection E2 as <- E2. exfalso. apply (HS k). rewrite E1. apply in_or_app. right. now left.
  - destruct (Q k d l2 E2) as [Q1 Q2]. split; [|exact Q2]. intros b p Hi. rewrite E1 in Hi. apply in_app_or in Hi.
    destruct Hi as [Hi|Hi]; [|eapply Q1; exact Hi]. apply HP in Hi. apply Hi. rewrite E2. apply in_or_app. right. now left.
Qed.

Lemma inv_heater s k h' a l : inv s -> h_pc (s_heaters s k) <> HNone -> h_pc h' <> HNone ->
  h_id h' = h_id (s_heaters s k) -> h_run h' = h_run (s_heaters s k) ->
  (busy (h_pc h') = true \/ h_pc h' = HDead -> h_lock h' = Some (THeat k)) ->
  (forall j, h_lock h' = Some (THeat j) -> j = k) ->
  (h_lock h' = Some TMain <-> h_lock (s_heaters s k) = Some TMain) ->
  (h_run h' = false -> armed (h_pc (s_heaters s k)) = false -> armed (h_pc h') = false) ->
  (forall j, ~ In (StopReturned j) l) ->
  (forall j b p, In (Power j b p) l -> j = k /\ armed (h_pc (s_heaters s k)) = true) ->
  inv (with_heater (with_adc s a) k h' l).
Proof.
  intros I Hn Hn' Hid Hrun Hb Ho Hm Ha Hs Hp.
  assert (SD: forall j, stop_done (with_heater (with_adc s a) k h' l) j -> stop_done s j).
  { intros j H. unfold stop_done in *. cbn in H. apply in_app_or in H. destruct H as [H|H]; [now apply Hs in H|exact H]. }
  assert (SD': forall j, stop_done s j -> stop_done (with_heater (with_adc s a) k h' l) j).
  { intros j H. unfold stop_done in *. cbn. apply in_or_app. now right. }
  split.
  - intros j. cbn. intros Hj. heq j k; [|now apply (i_fresh s I)]. exfalso. apply Hn. now apply (i_fresh s I).
  - intros j. cbn. intros Hj. heq j k; [contradiction|]. now apply (i_made s I).
  - intros j. cbn. intros Hj. heq j k; [auto|]. now apply (i_busy s I).
  - intros j. cbn. intros Hj. heq j k; [auto|]. now apply (i_dead s I).
  - intros j i. cbn. intros Hj. heq j k; [auto|]. now apply (i_own s I).
  - intros j. cbn. intros Hj. heq j k; [apply (i_main1 s I), Hm, Hj|]. now apply (i_main1 s I).
  - intros j. cbn. intros Hj. heq j k; [apply Hm, (i_main2 s I), Hj|]. now apply (i_main2 s I).
  - intros j. cbn. intros Hj.
    assert (K: s_main s = MStopRel j \/ s_main s = MStopOff j \/ stop_done s j) by (destruct Hj as [?|[?|?]]; auto).
    destruct (i_off s I j K) as [K1 K2]. heq j k; [|auto]. split; [congruence|]. apply Ha; [congruence|exact K2].
  - intros h j. cbn. intros Hj. destruct (i_rec s I h j Hj) as (K1 & K2 & K3). split; [auto|]. split; [|exact K3].
    heq j k; congruence.
  - intros j. cbn. intros Hj. pose proof (i_stop s I j Hj). heq j k; congruence.
  - intros j. cbn. intros Hj. destruct (i_new s I j Hj) as (K1 & K2 & K3). split; [auto|]. split; [|exact K3]. heq j k; congruence.
  - cbn. apply (quiet_more (fun _ => True)); [apply (i_quiet s I)|exact Hs|].
    intros j b p Hi. destruct (Hp j b p Hi) as [-> K]. intros Hd. destruct (i_off s I k) as [_ K2]; [auto|]. congruence.
Qed.

Lemma inv_hstep k s s' : inv s -> hstep reading clock k s s' -> inv s'.
Proof.
  intros I H.
  assert (B: forall p, h_pc (s_heaters s k) = p -> busy p = true -> h_lock (s_heaters s k) = Some (THeat k)).
  { intros p E Hb. apply (i_busy s I). now rewrite E. }
  destruct H;
    try match goal with |- inv (with_heater s k ?h ?l) => change (inv (with_heater (with_adc s (s_adc s)) k h l)) end;
    (apply inv_heater; [exact I|congruence|..]); cbn [h_pc h_id h_lock h_run set_pc set_lock set_err set_pid]; try discriminate; try reflexivity;
    try (specialize (B _ H eq_refl); rewrite ?B); rewrite ?H;
    try (intros; cbn in *; first [reflexivity|discriminate|congruence|tauto]);
    try (intros j b q [E|[]]; injection E as <- _ _; split; reflexivity);
    try (split; congruence).
  all: try (intros j [E|[]]; discriminate).
  all: try (intros j b q [E|[]]; discriminate).
  all: try (intros [?|?]; [congruence|discriminate]).
  all: try (intros j E; congruence).
  - destruct (ltb _ _); discriminate.
  - cbn. intros [?|?]; discriminate.
  - cbn. intros [?|?]; discriminate.
  - intros j E. now apply (i_own s I k).
Qed.

Lemma heater_dec (a b : heater_id) : {a = b} + {a <> b}.
Proof. decide equality. Qed.

Lemma inv_not_measured s a f c : inv s -> s_main s = MAdc c -> inv (not_measured (with_adc s a) c f).
Proof.
  intros I Hm. unfold not_measured. set (l := _ ++ [MeasErr TMain f]).
  assert (L1: forall j, ~ In (StopReturned j) l) by (intros j; unfold l; destruct c; cbn; intuition discriminate).
  assert (L2: forall j b q, ~ In (Power j b q) l) by (intros j b q; unfold l; destruct c; cbn; intuition discriminate).
  assert (SD: forall j, In (StopReturned j) (l ++ s_log s) -> stop_done s j).
  { intros j Hj. apply in_app_or in Hj. destruct Hj as [Hj|Hj]; [now apply L1 in Hj|exact Hj]. }
  split; cbn; try apply I; unfold stop_done; cbn.
  - intros j Hj. apply (i_main1 s I) in Hj. rewrite Hm in Hj. destruct Hj; discriminate.
  - intros j [Hj|Hj]; discriminate.
  - intros j [Hj|[Hj|Hj]]; try discriminate. apply (i_off s I). auto.
  - intros h j Hj. destruct (i_rec s I h j Hj) as (J1 & J2 & J3). split; [|split; auto]. auto.
  - intros j [Hj|[Hj|[Hj|Hj]]]; discriminate.
  - intros j [Hj|Hj]; discriminate.
  - apply (quiet_more (fun _ => True)); [apply (i_quiet s I)|exact L1|]. intros j b q Hi. now apply L2 in Hi.
Qed.

Lemma inv_mstep s s' : inv s -> mstep gains reading clock s s' -> inv s'.
Proof.
  intros I H. destruct H as [h target now p Hm Hr _ _ Hp|Hm|c Hm Ha|c Hm|c Hm|c Hm|c Hm|h k Hm Hr|k Hm Hl|k Hm|k Hm|k Hm].
  - (* m_new *)
    set (n := s_next s). destruct (i_fresh s I n (le_n _)) as (F1 & F2 & F3).
    assert (ND: ~ stop_done s n).
    { intros D. destruct (i_off s I n) as [K _]; [auto|]. congruence. }
    split; cbn; unfold stop_done; cbn.
    + intros j Hj. rewrite upd_other by lia. apply (i_fresh s I). lia.
    + intros j. heq j n; [discriminate|]. intros Hj. apply (i_made s I) in Hj. fold n in Hj. lia.
    + intros j. heq j n; [discriminate|]. apply (i_busy s I).
    + intros j. heq j n; [discriminate|]. apply (i_dead s I).
    + intros j i. heq j n; [discriminate|]. apply (i_own s I).
    + intros j. heq j n; [discriminate|]. intros Hj. apply (i_main1 s I) in Hj. rewrite Hm in Hj. destruct Hj; discriminate.
    + intros j [Hj|Hj]; discriminate.
    + intros j [Hj|[Hj|[Hj|Hj]]]; try discriminate. heq j n; [contradiction|]. apply (i_off s I). auto.
    + intros h' j Hj. destruct (i_rec s I _ _ Hj) as (K1 & K2 & K3). fold n in K3. rewrite upd_other by lia.
      split; [|split; [exact K2|lia]]. intros [Hd|Hd]; [discriminate|contradiction].
    + intros j [Hj|[Hj|[Hj|Hj]]]; discriminate.
    + intros j [Hj|Hj]; try discriminate. injection Hj as <-. rewrite upd_same. cbn. split; [|split; [exact Hr|lia]].
      intros [Hd|Hd]; [discriminate|contradiction].
    + apply (quiet_more (fun _ => True) (s_log s) [Created n h]); [apply (i_quiet s I)| |]; intros j; [|intros b q]; intros [E|[]]; discriminate.
  - (* m_measure *)
    split; cbn; try apply I; unfold stop_done; cbn.
    + intros j Hj. apply (i_main1 s I) in Hj. rewrite Hm in Hj. destruct Hj; discriminate.
    + intros j [Hj|Hj]; discriminate.
    + intros j [Hj|[Hj|Hj]]; try discriminate. apply (i_off s I). auto.
    + intros j [Hj|[Hj|[Hj|Hj]]]; discriminate.
    + intros j [Hj|Hj]; discriminate.
  - (* m_adc *)
    split; cbn; try apply I; unfold stop_done; cbn.
    + intros j Hj. apply (i_main1 s I) in Hj. rewrite Hm in Hj. destruct Hj; discriminate.
    + intros j [Hj|Hj]; discriminate.
    + intros j [Hj|[Hj|Hj]]; try discriminate. apply (i_off s I). auto.
    + intros j [Hj|[Hj|[Hj|Hj]]]; discriminate.
    + intros j [Hj|Hj]; try discriminate. injection Hj as ->. apply (i_new s I). auto.
  - (* m_measured *)
    assert (Q: forall l, (forall j, ~ In (StopReturned j) l) -> (forall j b q, ~ In (Power j b q) l) -> forall k l1 l2, l ++ s_log s = l1 ++ StopReturned k :: l2 ->
       (forall b p, ~ In (Power k b p) l1) /\ exists l3, l2 = Power k true zero :: l3).
    { intros l H1 H2. apply (quiet_more (fun _ => True)); [apply (i_quiet s I)|exact H1|]. intros j b q Hi. now apply H2 in Hi. }
    destruct c as [k|]; unfold measured; split; cbn; try apply I; unfold stop_done; cbn.
    + intros j Hj. apply (i_main1 s I) in Hj. rewrite Hm in Hj. destruct Hj; discriminate.
    + intros j [Hj|Hj]; discriminate.
    + intros j [Hj|[Hj|[Hj|[Hj|Hj]]]]; try discriminate. apply (i_off s I). auto.
    + destruct (i_new s I k (or_intror Hm)) as (K1 & K2 & K3). intros h j Hj.
      destruct (heater_dec h (h_id (s_heaters s k))) as [->|Hne].
      * rewrite upd_rec_same in Hj. injection Hj as <-. split; [|split; auto]. intros [E|[E|E]]; try discriminate. contradiction.
      * rewrite upd_rec_other in Hj by exact Hne. destruct (i_rec s I h j Hj) as (J1 & J2 & J3).
        split; [|split; auto]. intros [E|[E|E]]; try discriminate. contradiction.
    + intros j [Hj|[Hj|[Hj|Hj]]]; discriminate.
    + intros j [Hj|Hj]; discriminate.
    + apply (Q [Constructed k; MeasOk TMain]); intros; intros [E|[E|[]]]; discriminate.
    + intros j Hj. apply (i_main1 s I) in Hj. rewrite Hm in Hj. destruct Hj; discriminate.
    + intros j [Hj|Hj]; discriminate.
    + intros j [Hj|[Hj|[Hj|Hj]]]; try discriminate. apply (i_off s I). auto.
    + intros h j Hj. destruct (i_rec s I h j Hj) as (J1 & J2 & J3). split; [|split; auto]. intros [E|E]; try discriminate. contradiction.
    + intros j [Hj|[Hj|[Hj|Hj]]]; discriminate.
    + intros j [Hj|Hj]; discriminate.
    + apply (Q [MeasOk TMain]); intros; intros [E|[]]; discriminate.
  - now apply (inv_not_measured s None Refused c).
  - now apply (inv_not_measured s (s_adc s) I2cError c).
  - now apply (inv_not_measured s (s_adc s) OtherError c).
  - (* m_stop *)
    destruct (i_rec s I h k Hr) as (K1 & K2 & K3).
    split; cbn; try apply I; unfold stop_done; cbn.
    + intros j Hj. apply (i_main1 s I) in Hj. rewrite Hm in Hj. destruct Hj; discriminate.
    + intros j [Hj|Hj]; discriminate.
    + intros j [Hj|[Hj|[Hj|Hj]]]; try discriminate. apply (i_off s I). auto.
    + intros h' j Hj. destruct (i_rec s I h' j Hj) as (J1 & J2 & J3). split; [|split; auto]. intros [E|E]; try discriminate. contradiction.
    + intros j [Hj|[Hj|[Hj|Hj]]]; try discriminate. injection Hj as <-. congruence.
    + intros j [Hj|Hj]; discriminate.
    + apply (quiet_more (fun _ => True) (s_log s) [StopCalled k]); [apply (i_quiet s I)| |]; intros j; [|intros b q]; intros [E|[]]; discriminate.
  - (* m_stop_acquire *)
    pose proof (i_stop s I k ltac:(left; exact Hm)) as Hr. destruct (i_rec s I _ _ Hr) as (K1 & K2 & K3).
    assert (Np: h_pc (s_heaters s k) <> HNone) by (intros E; apply (i_made s I) in E; lia).
    split; cbn; unfold stop_done; cbn.
    + intros j Hj. rewrite upd_other by lia. now apply (i_fresh s I).
    + intros j. heq j k; cbn; apply (i_made s I).
    + intros j. heq j k; cbn; [|apply (i_busy s I)]. intros E. apply (i_busy s I) in E. congruence.
    + intros j. heq j k; cbn; [|apply (i_dead s I)]. intros E. apply (i_dead s I) in E. congruence.
    + intros j i. heq j k; cbn; [discriminate|apply (i_own s I)].
    + intros j. heq j k; cbn; [auto|]. intros Hj. apply (i_main1 s I) in Hj. rewrite Hm in Hj. destruct Hj; discriminate.
    + intros j [Hj|Hj]; try discriminate. injection Hj as <-. now rewrite upd_same.
    + intros j [Hj|[Hj|Hj]]; try discriminate. heq j k; cbn; apply (i_off s I); auto.
    + intros h' j Hj. destruct (i_rec s I h' j Hj) as (J1 & J2 & J3). split; [auto|split; auto]. heq j k; auto.
    + intros j [Hj|[Hj|[Hj|Hj]]]; try discriminate. injection Hj as <-. rewrite upd_same. exact Hr.
    + intros j [Hj|Hj]; discriminate.
    + apply (i_quiet s I).
  - (* m_stop_set *)
    pose proof (i_stop s I k ltac:(right; left; exact Hm)) as Hr. destruct (i_rec s I _ _ Hr) as (K1 & K2 & K3).
    pose proof (i_main2 s I k (or_introl Hm)) as Hl.
    assert (Ha: armed (h_pc (s_heaters s k)) = false).
    { destruct (h_pc (s_heaters s k)) eqn:E; try reflexivity; exfalso; [apply (i_made s I) in E; lia|..];
        pose proof (i_busy s I k) as B; rewrite E in B; specialize (B eq_refl); congruence. }
    split; cbn; unfold stop_done; cbn.
    + intros j Hj. rewrite upd_other by lia. now apply (i_fresh s I).
    + intros j. heq j k; cbn; apply (i_made s I).
    + intros j. heq j k; cbn; apply (i_busy s I).
    + intros j. heq j k; cbn; apply (i_dead s I).
    + intros j i. heq j k; cbn; apply (i_own s I).
    + intros j. heq j k; cbn; [auto|]. intros Hj. apply (i_main1 s I) in Hj. rewrite Hm in Hj. destruct Hj as [E|E]; try discriminate. injection E as ->. contradiction.
    + intros j [Hj|Hj]; try discriminate. injection Hj as <-. now rewrite upd_same.
    + intros j Hj. heq j k; cbn; [auto|]. apply (i_off s I). destruct Hj as [Hj|[Hj|Hj]]; try discriminate; auto. injection Hj as ->. contradiction.
    + intros h' j Hj. destruct (i_rec s I h' j Hj) as (J1 & J2 & J3). split; [auto|split; auto]. heq j k; auto.
    + intros j [Hj|[Hj|[Hj|Hj]]]; try discriminate. injection Hj as <-. rewrite upd_same. exact Hr.
    + intros j [Hj|Hj]; discriminate.
    + apply (i_quiet s I).
  - (* m_stop_release *)
    pose proof (i_stop s I k ltac:(right; right; left; exact Hm)) as Hr. destruct (i_rec s I _ _ Hr) as (K1 & K2 & K3).
    pose proof (i_main2 s I k (or_intror Hm)) as Hl. pose proof (i_off s I k (or_introl Hm)) as [Hrun Ha].
    split; cbn; unfold stop_done; cbn.
    + intros j Hj. rewrite upd_other by lia. now apply (i_fresh s I).
    + intros j. heq j k; cbn; apply (i_made s I).
    + intros j. heq j k; cbn; [|apply (i_busy s I)]. intros E. apply (i_busy s I) in E. congruence.
    + intros j. heq j k; cbn; [|apply (i_dead s I)]. intros E. apply (i_dead s I) in E. congruence.
    + intros j i. heq j k; cbn; [discriminate|apply (i_own s I)].
    + intros j. heq j k; cbn; [discriminate|]. intros Hj. apply (i_main1 s I) in Hj. rewrite Hm in Hj. destruct Hj as [E|E]; try discriminate. injection E as ->. contradiction.
    + intros j [Hj|Hj]; discriminate.
    + intros j Hj. heq j k; cbn; [auto|]. apply (i_off s I). destruct Hj as [Hj|[Hj|Hj]]; try discriminate; auto. injection Hj as ->. contradiction.
    + intros h' j Hj. destruct (i_rec s I h' j Hj) as (J1 & J2 & J3). split; [auto|split; auto]. heq j k; auto.
    + intros j [Hj|[Hj|[Hj|Hj]]]; try discriminate. injection Hj as <-. rewrite upd_same. exact Hr.
    + intros j [Hj|Hj]; discriminate.
    + apply (i_quiet s I).
  - (* m_stop_off *)
    pose proof (i_stop s I k ltac:(right; right; right; exact Hm)) as Hr. destruct (i_rec s I _ _ Hr) as (K1 & K2 & K3).
    pose proof (i_off s I k (or_intror (or_introl Hm))) as [Hrun Ha].
    split; cbn; try apply I; unfold stop_done; cbn.
    + intros j Hj. apply (i_main1 s I) in Hj. rewrite Hm in Hj. destruct Hj; discriminate.
    + intros j [Hj|Hj]; discriminate.
    + intros j [Hj|[Hj|[Hj|[Hj|Hj]]]]; try discriminate; [injection Hj as <-; auto|]. apply (i_off s I). auto.
    + intros h j Hj. destruct (heater_dec h (h_id (s_heaters s k))) as [->|Hne]; [rewrite upd_rec_same in Hj; discriminate|].
      rewrite upd_rec_other in Hj by exact Hne. destruct (i_rec s I h j Hj) as (J1 & J2 & J3). split; [|split; auto].
      intros [E|[E|E]]; try discriminate; [|contradiction]. injection E as ->. congruence.
    + intros j [Hj|[Hj|[Hj|Hj]]]; discriminate.
    + intros j [Hj|Hj]; discriminate.
    + intros j l1 l2 E. destruct l1 as [|x l1].
      * injection E as -> <-. split; [intros b q []|eauto].
      * injection E as <- E. destruct l1 as [|y l1]; [discriminate|]. injection E as <- E.
        destruct (i_quiet s I j l1 l2 E) as [Q1 Q2]. split; [|exact Q2].
        intros b q [F|[F|F]]; [discriminate| |eapply Q1; exact F]. injection F as <- <- <-.
        apply K1. unfold stop_done. rewrite E. apply in_or_app. right. now left.
Qed.
Lemma inv_reachable s : reachable s -> inv s.
Proof.
  apply reach_ind; [apply inv0|]. intros s1 s2 I [s' H|k s' H]; [eapply inv_mstep|eapply inv_hstep]; eassumption.
Qed.

(* ---------- C42 ---------- *)
Lemma stopped_stays_off s k l1 l2 : reachable s -> s_log s = l1 ++ StopReturned k :: l2 ->
  (forall b p, ~ In (Power k b p) l1) /\ exists l3, l2 = Power k true zero :: l3.
Proof. intros H. apply (i_quiet s (inv_reachable s H)). Qed.

(* ---------- after a failed measurement ---------- *)
Definition doomed (p : hpc N) : bool :=
  match p with HFail | HFailTime | HAcquire | HDead => true | _ => false end.
Definition meas_err (s : sys) (k : nat) : Prop := exists f, In (MeasErr (THeat k) f) (s_log s).

Record inv2 (s : sys) : Prop := {
  r_run : forall k, h_run (s_heaters s k) = false -> s_main s = MStopRel k \/ s_main s = MStopOff k \/ stop_done s k;
  r_err : forall k, meas_err s k ->
    h_lock (s_heaters s k) = Some (THeat k) /\ h_run (s_heaters s k) = true /\ doomed (h_pc (s_heaters s k)) = true;
  r_after : forall k f l1 l2, s_log s = l1 ++ MeasErr (THeat k) f :: l2 ->
    ~ In (MeasOk (THeat k)) l1 /\ forall b p, In (Power k b p) l1 -> p = zero;
  r_next : forall k f l1 l2, f <> OtherError -> s_log s = l1 ++ MeasErr (THeat k) f :: l2 ->
    (forall p, ~ In (Power k false p) l1) -> h_pc (s_heaters s k) = HFail;
  r_fail : forall k, h_pc (s_heaters s k) = HFail \/ h_pc (s_heaters s k) = HFailTime -> meas_err s k;
  r_lock : forall k, h_lock (s_heaters s k) = Some (THeat k) ->
    busy (h_pc (s_heaters s k)) = true \/ (h_pc (s_heaters s k) = HDead /\ h_run (s_heaters s k) = false) \/ meas_err s k
}.

Lemma inv20 p : inv2 (sys0 p).
Proof.
  split; cbn; unfold stop_done, meas_err; cbn; intros; try discriminate; try (destruct l1; discriminate).
  - now destruct H.
  - destruct H; discriminate.
Qed.

(** Extending a log by events that are no measurements of thread k. *)
Lemma split_more {A} (l log l1 l2 : list A) x : l ++ log = l1 ++ x :: l2 ->
  (exists d, l1 = l ++ d /\ log = d ++ x :: l2) \/ In x l.
Proof.
  intros E. apply app_eq_app in E. destruct E as (d & [[E1 E2]|[E1 E2]]).
  - destruct d as [|y d].
    + left. exists []. rewrite app_nil_r in *. cbn in *. auto.
    + right. injection E2 as <- _. rewrite E1. apply in_or_app. right. now left.
  - left. exists d. auto.
Qed.

(** A step that does not touch heater k and logs nothing about its thread. *)
Lemma inv2_same s s' k l : inv2 s -> s_log s' = l ++ s_log s -> s_heaters s' k = s_heaters s k ->
  (forall f, ~ In (MeasErr (THeat k) f) l) -> ~ In (MeasOk (THeat k)) l -> (forall b p, In (Power k b p) l -> b = true /\ p = zero) ->
  (forall f, In (MeasErr (THeat k) f) (s_log s') <-> In (MeasErr (THeat k) f) (s_log s)) /\
  (forall f l1 l2, s_log s' = l1 ++ MeasErr (THeat k) f :: l2 ->
     ~ In (MeasOk (THeat k)) l1 /\ forall b p, In (Power k b p) l1 -> p = zero) /\
  (forall f l1 l2, f <> OtherError -> s_log s' = l1 ++ MeasErr (THeat k) f :: l2 ->
     (forall p, ~ In (Power k false p) l1) -> h_pc (s_heaters s' k) = HFail).
Proof.
  intros I El Eh L1 L2 L3. split; [|split].
  - intros f. rewrite El. split; intros H; [|apply in_or_app; now right]. apply in_app_or in H. destruct H as [H|H]; [now apply L1 in H|exact H].
  - intros f l1 l2 E. rewrite El in E. apply split_more in E. destruct E as [(d & -> & E)|E]; [|now apply L1 in E].
    destruct (r_after s I k f d l2 E) as [K1 K2]. split.
    + intros H. apply in_app_or in H. tauto.
    + intros b p H. apply in_app_or in H. destruct H as [H|H]; [now apply L3 in H|eapply K2; exact H].
  - intros f l1 l2 Hf E Hp. rewrite El in E. apply split_more in E. destruct E as [(d & -> & E)|E]; [|now apply L1 in E].
    rewrite Eh. apply (r_next s I k f d l2 Hf E). intros p H. apply (Hp p). apply in_or_app. now right.
Qed.

Lemma inv2_hstep k s s' : inv s -> inv2 s -> hstep reading clock k s s' -> inv2 s'.
Proof.
  intros I J H.
  assert (Hm: s_main s' = s_main s) by (destruct H; reflexivity).
  assert (Ho: forall j, j <> k -> s_heaters s' j = s_heaters s j) by (intros j Hj; destruct H; cbn; now apply upd_other).
  assert (HL: exists l, s_log s' = l ++ s_log s /\ (forall j, ~ In (StopReturned j) l) /\
     (forall j, j <> k -> (forall f, ~ In (MeasErr (THeat j) f) l) /\ ~ In (MeasOk (THeat j)) l /\ forall b p, ~ In (Power j b p) l)).
  { destruct H; eexists; (split; [reflexivity|]); (split; [intros j; cbn; intuition discriminate|]);
    intros j Hj; (split; [intros ?|split; [|intros ? ?]]); cbn; intros Hin; repeat destruct Hin as [Hin|Hin]; try discriminate; try contradiction;
    injection Hin; intros; congruence. }
  destruct HL as (l & El & LS & LO).
  assert (Hrun: h_run (s_heaters s' k) = h_run (s_heaters s k)) by (destruct H; cbn; now rewrite upd_same).
  assert (Hsd: forall j, stop_done s j <-> stop_done s' j).
  { intros j. unfold stop_done. rewrite El. split; intros Hj; [apply in_or_app; now right|]. apply in_app_or in Hj. destruct Hj; [now apply LS in H0|assumption]. }
  assert (RUN: forall j, h_run (s_heaters s' j) = false -> s_main s' = MStopRel j \/ s_main s' = MStopOff j \/ stop_done s' j).
  { intros j Hj. rewrite Hm, <- Hsd. apply (r_run s J). destruct (Nat.eq_dec j k) as [->|Hne]; [congruence|]. now rewrite <- Ho. }
  assert (OTH: forall j, j <> k -> _) by (intros j Hj; destruct (LO j Hj) as (A & B & C); exact (inv2_same s s' j l J El (Ho j Hj) A B (fun b p h => False_ind _ (C b p h)))).
  (* the thread itself *)
  assert (ARM: armed (h_pc (s_heaters s k)) = true -> h_run (s_heaters s k) = true).
  { intros Ha. destruct (h_run (s_heaters s k)) eqn:E; [reflexivity|]. exfalso. apply (r_run s J) in E. apply (i_off s I) in E. destruct E as [_ E]. congruence. }
  assert (SELF:
    (meas_err s' k -> h_lock (s_heaters s' k) = Some (THeat k) /\ h_run (s_heaters s' k) = true /\ doomed (h_pc (s_heaters s' k)) = true) /\
    (forall f l1 l2, s_log s' = l1 ++ MeasErr (THeat k) f :: l2 -> ~ In (MeasOk (THeat k)) l1 /\ forall b p, In (Power k b p) l1 -> p = zero) /\
    (forall f l1 l2, f <> OtherError -> s_log s' = l1 ++ MeasErr (THeat k) f :: l2 -> (forall p, ~ In (Power k false p) l1) -> h_pc (s_heaters s' k) = HFail) /\
    (h_pc (s_heaters s' k) = HFail \/ h_pc (s_heaters s' k) = HFailTime -> meas_err s' k) /\
    (h_lock (s_heaters s' k) = Some (THeat k) -> busy (h_pc (s_heaters s' k)) = true \/ (h_pc (s_heaters s' k) = HDead /\ h_run (s_heaters s' k) = false) \/ meas_err s' k)).
  { assert (MM: meas_err s k -> meas_err s' k) by (intros [f Hf]; exists f; rewrite El; apply in_or_app; now right).
    assert (B: busy (h_pc (s_heaters s k)) = true -> h_lock (s_heaters s k) = Some (THeat k)) by apply (i_busy s I).
    assert (NE: doomed (h_pc (s_heaters s k)) = false -> ~ meas_err s k).
    { intros E Hk. apply (r_err s J) in Hk. destruct Hk as (_ & _ & Hk). congruence. }
    rewrite Hrun. clear RUN OTH Ho Hm Hsd LS LO. destruct H; cbn [s_heaters s_log with_heater with_adc] in *; rewrite upd_same in *;
      cbn [h_pc h_id h_lock h_run set_pc set_lock set_err set_pid] in *; apply app_inv_tail in El; subst l;
      match goal with Hpc : h_pc (s_heaters s k) = _ |- _ => rewrite Hpc in * end; unfold meas_err in *; cbn [busy armed doomed s_log with_heater with_adc app] in *; fold (meas_err s k) in *.
    - (* acquire *)
      assert (~ meas_err s k) by (intros Hk; apply (r_err s J) in Hk; destruct Hk as (Hk & _); congruence).
      split; [intros Hk; contradiction|]. split; [|split; [|split; [intros [E|E]; discriminate|auto]]].
      + intros f l1 l2 E. exfalso. apply H1. exists f. rewrite E. apply in_or_app. right. now left.
      + intros f l1 l2 _ E. exfalso. apply H1. exists f. rewrite E. apply in_or_app. right. now left.
    - specialize (NE eq_refl). split; [intros Hk; contradiction|]. split; [|split; [|split; [intros [E|E]; discriminate|auto]]].
      + intros f l1 l2 E. exfalso. apply NE. exists f. rewrite E. apply in_or_app. right. now left.
      + intros f l1 l2 _ E. exfalso. apply NE. exists f. rewrite E. apply in_or_app. right. now left.
    - specialize (NE eq_refl). split; [intros Hk; contradiction|]. split; [|split; [|split; [intros [E|E]; discriminate|auto]]].
      + intros f l1 l2 E. exfalso. apply NE. exists f. rewrite E. apply in_or_app. right. now left.
      + intros f l1 l2 _ E. exfalso. apply NE. exists f. rewrite E. apply in_or_app. right. now left.
    - specialize (NE eq_refl). split; [intros Hk; contradiction|]. split; [|split; [|split; [intros [E|E]; discriminate|auto]]].
      + intros f l1 l2 E. exfalso. apply NE. exists f. rewrite E. apply in_or_app. right. now left.
      + intros f l1 l2 _ E. exfalso. apply NE. exists f. rewrite E. apply in_or_app. right. now left.
    - (* measured *)
      specialize (NE eq_refl). assert (NE2: forall f, ~ In (MeasErr (THeat k) f) (MeasOk (THeat k) :: s_log s)).
      { intros f [E|E]; [discriminate|]. apply NE. now exists f. }
      split; [intros [f Hk]; now apply NE2 in Hk|]. split; [|split; [|split; [intros [E|E]; discriminate|auto]]].
      + intros f l1 l2 E. exfalso. apply (NE2 f). cbn in E. rewrite E. apply in_or_app. right. now left.
      + intros f l1 l2 _ E. exfalso. apply (NE2 f). cbn in E. rewrite E. apply in_or_app. right. now left.
    - specialize (NE eq_refl). assert (ME: forall l1 l2 f, MeasErr (THeat k) Refused :: s_log s = l1 ++ MeasErr (THeat k) f :: l2 -> l1 = []).
      { intros [|x l1] l2 f E; [reflexivity|]. injection E as _ E. exfalso. apply NE. exists f. rewrite E. apply in_or_app. right. now left. }
      split; [intros _; auto|]. split; [|split; [auto|split; [intros _; exists Refused; now left|auto]]].
      intros f l1 l2 E. apply ME in E. subst. split; [intros []|intros b p []].
    - specialize (NE eq_refl). assert (ME: forall l1 l2 f, MeasErr (THeat k) I2cError :: s_log s = l1 ++ MeasErr (THeat k) f :: l2 -> l1 = []).
      { intros [|x l1] l2 f E; [reflexivity|]. injection E as _ E. exfalso. apply NE. exists f. rewrite E. apply in_or_app. right. now left. }
      split; [intros _; auto|]. split; [|split; [auto|split; [intros _; exists I2cError; now left|auto]]].
      intros f l1 l2 E. apply ME in E. subst. split; [intros []|intros b p []].
    - specialize (NE eq_refl). assert (ME: forall l1 l2 f, MeasErr (THeat k) OtherError :: s_log s = l1 ++ MeasErr (THeat k) f :: l2 -> l1 = [] /\ f = OtherError).
      { intros [|x l1] l2 f E; [injection E as <- _; auto|]. injection E as _ E. exfalso. apply NE. exists f. rewrite E. apply in_or_app. right. now left. }
      split; [intros _; auto|]. split; [|split; [|split; [intros _; exists OtherError; now left|right; right; exists OtherError; now left]]].
      + intros f l1 l2 E. apply ME in E. destruct E as [-> _]. split; [intros []|intros b p []].
      + intros f l1 l2 Hf E. apply ME in E. destruct E. contradiction.
    - (* off *)
      assert (K: meas_err s k) by (apply (r_fail s J); auto). destruct (r_err s J k K) as (K1 & K2 & K3).
      split; [auto|]. split; [|split; [|split; [auto|auto]]].
      + intros f l1 l2 E. destruct l1 as [|x l1]; [discriminate|]. injection E as <- E. destruct (r_after s J k f l1 l2 E) as [Q1 Q2].
        split; [intros [F|F]; [discriminate|auto]|]. intros b p [F|F]; [injection F as _ <-; reflexivity|eapply Q2; exact F].
      + intros f l1 l2 Hf E Hp. destruct l1 as [|x l1]; [discriminate|]. injection E as <- E. exfalso. apply (Hp zero). now left.
    - (* first error *)
      assert (K: meas_err s k) by (apply (r_fail s J); auto). destruct (r_err s J k K) as (K1 & K2 & K3).
      split; [auto|]. split; [apply (r_after s J k)|]. split; [|split; [auto|auto]].
      intros f l1 l2 Hf E Hp. pose proof (r_next s J k f l1 l2 Hf E Hp). congruence.
    - assert (K: meas_err s k) by (apply (r_fail s J); auto). destruct (r_err s J k K) as (K1 & K2 & K3).
      split; [intros _; split; [exact K1|split; [exact K2|destruct (ltb _ _); reflexivity]]|]. split; [apply (r_after s J k)|]. split; [|split; [auto|auto]].
      intros f l1 l2 Hf E Hp. pose proof (r_next s J k f l1 l2 Hf E Hp). congruence.
    - (* control *)
      specialize (NE eq_refl). assert (NE2: forall f, ~ In (MeasErr (THeat k) f) (Power k false p :: s_log s)).
      { intros f [E|E]; [discriminate|]. apply NE. now exists f. }
      split; [intros [f Hk]; now apply NE2 in Hk|]. split; [|split; [|split; [intros [E|E]; discriminate|auto]]].
      + intros f l1 l2 E. exfalso. apply (NE2 f). cbn in E. rewrite E. apply in_or_app. right. now left.
      + intros f l1 l2 _ E. exfalso. apply (NE2 f). cbn in E. rewrite E. apply in_or_app. right. now left.
    - specialize (NE eq_refl). split; [intros Hk; contradiction|]. split; [|split; [|split; [intros [E|E]; discriminate|discriminate]]].
      + intros f l1 l2 E. exfalso. apply NE. exists f. rewrite E. apply in_or_app. right. now left.
      + intros f l1 l2 _ E. exfalso. apply NE. exists f. rewrite E. apply in_or_app. right. now left.
    - specialize (NE eq_refl). split; [intros Hk; contradiction|]. split; [|split; [|split; [intros [E|E]; discriminate|]]].
      + intros f l1 l2 E. exfalso. apply NE. exists f. rewrite E. apply in_or_app. right. now left.
      + intros f l1 l2 _ E. exfalso. apply NE. exists f. rewrite E. apply in_or_app. right. now left.
      + intros E. destruct (r_lock s J k E) as [K|[[K _]|K]]; [|congruence|auto]. rewrite H in K. discriminate. }
  destruct SELF as (S1 & S2 & S3 & S4 & S5).
  split; [exact RUN|..].
  - intros j Hj. destruct (Nat.eq_dec j k) as [->|Hne]; [auto|]. rewrite Ho by exact Hne. apply (r_err s J). destruct Hj as [f Hj]. exists f. now apply (OTH j Hne).
  - intros j. destruct (Nat.eq_dec j k) as [->|Hne]; [exact S2|]. apply (OTH j Hne).
  - intros j. destruct (Nat.eq_dec j k) as [->|Hne]; [exact S3|]. apply (OTH j Hne).
  - intros j. destruct (Nat.eq_dec j k) as [->|Hne]; [exact S4|]. rewrite Ho by exact Hne. intros Hj. apply (r_fail s J) in Hj. destruct Hj as [f Hj]. exists f. now apply (OTH j Hne).
  - intros j. destruct (Nat.eq_dec j k) as [->|Hne]; [exact S5|]. rewrite Ho by exact Hne. intros Hj. destruct (r_lock s J j Hj) as [K|[K|[f K]]]; auto.
    right. right. exists f. now apply (OTH j Hne).
Qed.

Lemma mstep_log s s' : mstep gains reading clock s s' -> exists l, s_log s' = l ++ s_log s /\
  forall k, (forall f, ~ In (MeasErr (THeat k) f) l) /\ ~ In (MeasOk (THeat k)) l /\ forall b p, In (Power k b p) l -> b = true /\ p = zero.
Proof.
  intros H. destruct H; try destruct c; cbn; unfold not_measured, measured; cbn;
    match goal with
    | |- exists l, ?a :: ?b :: ?r = l ++ ?r /\ _ => exists [a; b]
    | |- exists l, ?a :: ?r = l ++ ?r /\ _ => exists [a]
    | |- exists l, ?r = l ++ ?r /\ _ => exists []
    end; (split; [reflexivity|]); intros j; (split; [intros ?|split; [|intros ? ?]]); cbn;
    intros Hin; repeat destruct Hin as [Hin|Hin]; try discriminate; try contradiction.
  injection Hin as _ <- <-. auto.
Qed.
(** What the main thread can do to a heater. *)
Lemma mstep_heater s s' k : inv s -> mstep gains reading clock s s' ->
  (k = s_next s /\ h_pc (s_heaters s k) = HNone /\ exists h p, s_heaters s' k = new_heater h p) \/
  s_heaters s' k = s_heaters s k \/
  (s_main s = MStopAcq k /\ h_lock (s_heaters s k) = None /\ s_heaters s' k = set_lock (s_heaters s k) (Some TMain)) \/
  (s_main s = MStopSet k /\ s_heaters s' k = set_stop (s_heaters s k)) \/
  (s_main s = MStopRel k /\ s_heaters s' k = set_lock (s_heaters s k) None).
Proof.
  intros I H. destruct H; try (right; left; reflexivity); try (right; left; destruct c; reflexivity).
  - cbn. heq k (s_next s); [|auto]. left. split; [reflexivity|]. split; [now apply (i_fresh s I)|eauto].
  - cbn. heq k k0; auto 9.
  - cbn. heq k k0; auto 9.
  - cbn. heq k k0; auto 9.
Qed.
Lemma mstep_run s s' k : inv s -> mstep gains reading clock s s' -> h_run (s_heaters s' k) = false ->
  (s_main s = MStopRel k \/ s_main s = MStopOff k \/ stop_done s k -> h_run (s_heaters s k) = false) ->
  (h_run (s_heaters s k) = false -> s_main s = MStopRel k \/ s_main s = MStopOff k \/ stop_done s k) ->
  s_main s' = MStopRel k \/ s_main s' = MStopOff k \/ stop_done s' k.
Proof.
  intros I H Hr _ K. unfold stop_done in *. destruct H; try destruct c; unfold not_measured, measured; cbn in *.
  1: destruct (Nat.eq_dec k (s_next s)) as [->|Hne]; [rewrite upd_same in Hr; discriminate|rewrite upd_other in Hr by exact Hne].
  all: try (heq k k0; cbn in Hr).
  all: try match goal with Hm : s_main _ = _ |- _ => rewrite Hm in K end.
  all: try (destruct (K Hr) as [E|[E|E]]; try discriminate; auto 6; injection E as ->; auto 6).
  all: try now auto.
  all: try congruence.
Qed.

Lemma inv2_mstep s s' : inv s -> inv2 s -> mstep gains reading clock s s' -> inv2 s'.
Proof.
  intros I J H. destruct (mstep_log s s' H) as (l & El & L).
  assert (NEW: forall k, h_pc (s_heaters s k) = HNone -> ~ meas_err s k).
  { intros k E Hk. apply (r_err s J) in Hk. destruct Hk as (_ & _ & Hk). rewrite E in Hk. discriminate. }
  assert (ME: forall k, meas_err s' k <-> meas_err s k).
  { intros k. destruct (L k) as (A & _). unfold meas_err. split; intros [f Hf]; exists f; rewrite El in *.
    - apply in_app_or in Hf. destruct Hf as [Hf|Hf]; [now apply A in Hf|exact Hf].
    - apply in_or_app. now right. }
  assert (HH := fun k => mstep_heater s s' k I H).
  split.
  - intros k Hr. apply (mstep_run s s' k I H Hr); [apply (i_off s I)|apply (r_run s J)].
  - intros k Hk. rewrite ME in Hk. destruct (r_err s J k Hk) as (K1 & K2 & K3).
    destruct (HH k) as [(-> & E & _)|[->|[(E & E2 & _)|[(E & _)|(E & _)]]]]; [now apply NEW in E|auto|congruence|..].
    + pose proof (i_main2 s I k (or_introl E)). congruence.
    + pose proof (i_main2 s I k (or_intror E)). congruence.
  - intros k f l1 l2 E. rewrite El in E. destruct (L k) as (A & B & C). apply split_more in E. destruct E as [(d & -> & E)|E]; [|now apply A in E].
    destruct (r_after s J k f d l2 E) as [K1 K2]. split.
    + intros Hi. apply in_app_or in Hi. tauto.
    + intros b p Hi. apply in_app_or in Hi. destruct Hi as [Hi|Hi]; [now apply C in Hi|eapply K2; exact Hi].
  - intros k f l1 l2 Hf E Hp. rewrite El in E. destruct (L k) as (A & B & C). apply split_more in E. destruct E as [(d & -> & E)|E]; [|now apply A in E].
    assert (P: h_pc (s_heaters s k) = HFail).
    { apply (r_next s J k f d l2 Hf E). intros p Hi. apply (Hp p). apply in_or_app. now right. }
    destruct (HH k) as [(-> & E1 & _)|[E1|[(_ & _ & E1)|[(_ & E1)|(_ & E1)]]]]; [congruence|..]; rewrite E1; exact P.
  - intros k Hk. rewrite ME. apply (r_fail s J).
    destruct (HH k) as [(-> & _ & h & p & E1)|[E1|[(_ & _ & E1)|[(_ & E1)|(_ & E1)]]]]; rewrite E1 in Hk; try exact Hk.
    cbn in Hk. destruct Hk; discriminate.
  - intros k Hk. rewrite ME.
    destruct (HH k) as [(-> & _ & h & p & E1)|[E1|[(_ & _ & E1)|[(E0 & E1)|(_ & E1)]]]]; rewrite E1 in *; cbn in Hk |- *; try discriminate.
    + apply (r_lock s J k Hk).
    + pose proof (i_main2 s I k (or_introl E0)). congruence.
Qed.

Lemma inv2_reachable s : reachable s -> inv s /\ inv2 s.
Proof.
  revert s. apply reach_ind; [intros p; split; [apply inv0|apply inv20]|]. intros s1 s2 [I J] [s' H|k s' H]; split.
  - eapply inv_mstep; eassumption.
  - eapply inv2_mstep; eassumption.
  - eapply inv_hstep; eassumption.
  - eapply inv2_hstep; eassumption.
Qed.

(* ---------- C43 ---------- *)
Lemma failed_power_zero s k f l1 l2 b p : reachable s -> s_log s = l1 ++ MeasErr (THeat k) f :: l2 ->
  In (Power k b p) l1 -> p = zero.
Proof. intros H E. apply (r_after s (proj2 (inv2_reachable s H)) k f l1 l2 E). Qed.
Lemma failed_switches_off s k f l1 l2 : reachable s -> f <> OtherError -> s_log s = l1 ++ MeasErr (THeat k) f :: l2 ->
  (forall p, ~ In (Power k false p) l1) ->
  exists s', step s s' /\ s_log s' = Power k false zero :: s_log s.
Proof.
  intros H Hf E Hp. pose proof (r_next s (proj2 (inv2_reachable s H)) k f l1 l2 Hf E Hp) as P.
  eexists. split; [apply (step_heater _ _ _ s k); now apply h_off|reflexivity].
Qed.

(* ---------- C44: after a failed measurement stop() never returns ---------- *)
Lemma failed_never_stops s k f : reachable s -> In (MeasErr (THeat k) f) (s_log s) -> ~ stop_done s k.
Proof.
  intros H Hi D. destruct (inv2_reachable s H) as [I J]. destruct (r_err s J k) as (_ & E & _); [now exists f|].
  destruct (i_off s I k) as [E2 _]; [auto|]. congruence.
Qed.

Lemma steps_log s s' : steps s s' -> exists l, s_log s' = l ++ s_log s.
Proof.
  induction 1 as [|s1 s2 _ (l & IH) H]; [now exists []|].
  assert (exists d, s_log s2 = d ++ s_log s1) as (d & E).
  { destruct H as [s' H|k s' H]; [destruct (mstep_log _ _ H) as (d & E & _); eauto|]. destruct H; eexists; reflexivity. }
  exists (d ++ l). now rewrite E, IH, app_assoc.
Qed.
(** Once the main thread is waiting in stop() for a heater whose measurement has
    failed, it waits forever. *)
Lemma stuck_in_stop s k f s' : reachable s -> In (MeasErr (THeat k) f) (s_log s) -> s_main s = MStopAcq k ->
  steps s s' -> s_main s' = MStopAcq k.
Proof.
  intros H Hi Hm Hs. pose proof (reachable_steps _ _ H Hs) as H'.
  revert Hs H'. induction 1 as [|s1 s2 Hs IH Hst]; intros H'; [exact Hm|].
  assert (H1: reachable s1) by exact (reachable_steps _ _ H Hs). specialize (IH H1).
  destruct (inv2_reachable s1 H1) as [I J]. destruct (steps_log _ _ Hs) as (l & El).
  destruct (r_err s1 J k) as (E & _ & _); [exists f; rewrite El; apply in_or_app; now right|].
  destruct Hst as [s2 Hst|j s2 Hst]; [|destruct Hst; exact IH]. destruct Hst; try congruence.
Qed.

(* ---------- the ADC lock ---------- *)
Definition holding (s : sys) (t : tid) : Prop :=
  match t with TMain => exists c, s_main s = MAdc c | THeat k => h_pc (s_heaters s k) = HAdc end.
Definition broke (l : list (happening N)) : Prop := exists t f, In (MeasErr t f) l /\ f <> Refused.

Record inv3 (s : sys) : Prop := {
  a_hold : forall t, holding s t -> s_adc s = Some t;
  a_free : forall t, s_adc s = Some t -> holding s t \/ broke (s_log s);
  a_broke : broke (s_log s) -> exists t, s_adc s = Some t /\ ~ holding s t;
  a_after : forall t f l1 l2, f <> Refused -> s_log s = l1 ++ MeasErr t f :: l2 -> forall t', ~ In (MeasOk t') l1 /\ forall f', ~ In (MeasErr t' f') l1
}.
Lemma inv30 p : inv3 (sys0 p).
Proof.
  split; cbn.
  - intros [|k]; cbn; [intros (c & E); discriminate|discriminate].
  - discriminate.
  - intros (t & f & [] & _).
  - intros t f [|? l1]; discriminate.
Qed.

Definition no_meas (l : list (happening N)) : Prop := forall t, ~ In (MeasOk t) l /\ forall f, ~ In (MeasErr t f) l.
Inductive adc_move (s s' : sys) : Prop :=
| av_none l : s_log s' = l ++ s_log s -> no_meas l -> s_adc s' = s_adc s -> (forall t, holding s' t <-> holding s t) -> adc_move s s'
| av_take l t0 : s_log s' = l ++ s_log s -> no_meas l -> s_adc s = None -> s_adc s' = Some t0 ->
    (forall t, holding s' t <-> holding s t \/ t = t0) -> adc_move s s'
| av_free l t0 x : s_log s' = l ++ x :: s_log s -> no_meas l -> x = MeasOk t0 \/ x = MeasErr t0 Refused -> holding s t0 -> s_adc s' = None ->
    (forall t, holding s' t <-> holding s t /\ t <> t0) -> adc_move s s'
| av_break l t0 f : s_log s' = l ++ MeasErr t0 f :: s_log s -> no_meas l -> f <> Refused -> holding s t0 -> s_adc s' = s_adc s ->
    (forall t, holding s' t <-> holding s t /\ t <> t0) -> adc_move s s'.

Lemma no_meas_nil : no_meas [].
Proof. intros t. split; [intros []|intros f []]. Qed.
Ltac nomeas := intros ?; split; [|intros ?]; cbn; intros Hin; repeat destruct Hin as [Hin|Hin]; try discriminate; contradiction.

Lemma hold_upd s s' k p : s_main s' = s_main s -> (forall j, j <> k -> h_pc (s_heaters s' j) = h_pc (s_heaters s j)) ->
  h_pc (s_heaters s k) = p -> p <> HAdc -> h_pc (s_heaters s' k) <> HAdc -> forall t, holding s' t <-> holding s t.
Proof.
  intros Hm Ho Hp Hn Hn' [|j]; cbn; [now rewrite Hm|]. destruct (Nat.eq_dec j k) as [->|Hne]; [|now rewrite Ho].
  split; intros E; congruence.
Qed.
Lemma hold_drop s s' k : s_main s' = s_main s -> (forall j, j <> k -> h_pc (s_heaters s' j) = h_pc (s_heaters s j)) ->
  h_pc (s_heaters s' k) <> HAdc -> forall t, holding s' t <-> holding s t /\ t <> THeat k.
Proof.
  intros Hm Ho Hn' [|j]; cbn; [rewrite Hm; intuition discriminate|]. destruct (Nat.eq_dec j k) as [->|Hne].
  - split; [contradiction|]. intros [_ E]. now contradiction E.
  - rewrite Ho by exact Hne. split; [|tauto]. intros E. split; [exact E|]. congruence.
Qed.

Lemma hstep_adc k s s' : hstep reading clock k s s' -> adc_move s s'.
Proof.
  intros H.
  assert (Hm: s_main s' = s_main s) by (destruct H; reflexivity).
  assert (Ho: forall j, j <> k -> h_pc (s_heaters s' j) = h_pc (s_heaters s j)) by (intros j Hj; destruct H; cbn; now rewrite upd_other).
  destruct H.
  - eapply (av_none _ _ []); [reflexivity|apply no_meas_nil|reflexivity|]. eapply hold_upd; try eassumption; [discriminate|cbn; rewrite upd_same; discriminate].
  - eapply (av_none _ _ []); [reflexivity|apply no_meas_nil|reflexivity|]. eapply hold_upd; try eassumption; [discriminate|cbn; rewrite upd_same; discriminate].
  - eapply (av_none _ _ []); [reflexivity|apply no_meas_nil|reflexivity|]. eapply hold_upd; try eassumption; [discriminate|cbn; rewrite upd_same; discriminate].
  - eapply (av_take _ _ [] (THeat k)); [reflexivity|apply no_meas_nil|assumption|reflexivity|].
    intros [|j]; [cbn; intuition discriminate|]. destruct (Nat.eq_dec j k) as [->|Hne].
    + cbn. rewrite upd_same. cbn. tauto.
    + unfold holding. rewrite Ho by exact Hne. split; [auto|]. intros [E|E]; [exact E|congruence].
  - eapply (av_free _ _ [] (THeat k)); [reflexivity|apply no_meas_nil|auto|assumption|reflexivity|]. apply hold_drop; try assumption. cbn. rewrite upd_same. discriminate.
  - eapply (av_free _ _ [] (THeat k)); [reflexivity|apply no_meas_nil|auto|assumption|reflexivity|]. apply hold_drop; try assumption. cbn. rewrite upd_same. discriminate.
  - eapply (av_break _ _ [] (THeat k) I2cError); [reflexivity|apply no_meas_nil|discriminate|assumption|reflexivity|]. apply hold_drop; try assumption. cbn. rewrite upd_same. discriminate.
  - eapply (av_break _ _ [] (THeat k) OtherError); [reflexivity|apply no_meas_nil|discriminate|assumption|reflexivity|]. apply hold_drop; try assumption. cbn. rewrite upd_same. discriminate.
  - eapply (av_none _ _ [_]); [reflexivity|nomeas|reflexivity|]. eapply hold_upd; try eassumption; [discriminate|cbn; rewrite upd_same; discriminate].
  - eapply (av_none _ _ []); [reflexivity|apply no_meas_nil|reflexivity|]. eapply hold_upd; try eassumption; [discriminate|cbn; rewrite upd_same; discriminate].
  - eapply (av_none _ _ []); [reflexivity|apply no_meas_nil|reflexivity|]. eapply hold_upd; try eassumption; [discriminate|cbn; rewrite upd_same; cbn; destruct (ltb _ _); discriminate].
  - eapply (av_none _ _ [_]); [reflexivity|nomeas|reflexivity|]. eapply hold_upd; try eassumption; [discriminate|cbn; rewrite upd_same; discriminate].
  - eapply (av_none _ _ []); [reflexivity|apply no_meas_nil|reflexivity|]. eapply hold_upd; try eassumption; [discriminate|cbn; rewrite upd_same; discriminate].
  - eapply (av_none _ _ []); [reflexivity|apply no_meas_nil|reflexivity|]. eapply hold_upd; try eassumption; [discriminate|cbn; rewrite upd_same; discriminate].
Qed.

Lemma hold_main s s' m : s_main s = m -> (forall j, h_pc (s_heaters s' j) = HAdc <-> h_pc (s_heaters s j) = HAdc) ->
  (forall c, m <> MAdc c) -> (forall c, s_main s' <> MAdc c) -> forall t, holding s' t <-> holding s t.
Proof.
  intros Hm Hp H1 H2 [|j]; cbn; [|apply Hp]. split; intros [c E]; [now apply H2 in E|]. exfalso. apply (H1 c). congruence.
Qed.
Lemma hold_main_drop s s' : (forall j, s_heaters s' j = s_heaters s j) -> (forall c, s_main s' <> MAdc c) ->
  forall t, holding s' t <-> holding s t /\ t <> TMain.
Proof.
  intros Hp H2 [|j]; cbn; [|rewrite Hp; intuition discriminate]. split; [intros [c E]; now apply H2 in E|]. intros [_ E]. now contradiction E.
Qed.

Lemma mstep_adc s s' : inv s -> mstep gains reading clock s s' -> adc_move s s'.
Proof.
  intros I H. destruct H.
  - eapply (av_none _ _ [_]); [reflexivity|nomeas|reflexivity|]. eapply hold_main; [eassumption| |discriminate|discriminate].
    intros j. cbn. destruct (Nat.eq_dec j (s_next s)) as [->|Hne]; [|now rewrite upd_other]. rewrite upd_same. cbn.
    destruct (i_fresh s I (s_next s) (le_n _)) as (E & _). rewrite E. split; discriminate.
  - eapply (av_none _ _ []); [reflexivity|apply no_meas_nil|reflexivity|]. eapply hold_main; [eassumption|reflexivity|discriminate|discriminate].
  - eapply (av_take _ _ [] TMain); [reflexivity|apply no_meas_nil|assumption|reflexivity|].
    intros [|j]; cbn; [|intuition discriminate]. split; [auto|eauto].
  - destruct c as [k|].
    + eapply (av_free _ _ [_] TMain); [reflexivity|nomeas|auto|eexists; eassumption|reflexivity|]. apply hold_main_drop; [reflexivity|discriminate].
    + eapply (av_free _ _ [] TMain); [reflexivity|nomeas|auto|eexists; eassumption|reflexivity|]. apply hold_main_drop; [reflexivity|discriminate].
  - destruct c as [k|].
    + eapply (av_free _ _ [_] TMain); [reflexivity|nomeas|auto|eexists; eassumption|reflexivity|]. apply hold_main_drop; [reflexivity|discriminate].
    + eapply (av_free _ _ [] TMain); [reflexivity|nomeas|auto|eexists; eassumption|reflexivity|]. apply hold_main_drop; [reflexivity|discriminate].
  - destruct c as [k|].
    + eapply (av_break _ _ [_] TMain I2cError); [reflexivity|nomeas|discriminate|eexists; eassumption|reflexivity|]. apply hold_main_drop; [reflexivity|discriminate].
    + eapply (av_break _ _ [] TMain I2cError); [reflexivity|nomeas|discriminate|eexists; eassumption|reflexivity|]. apply hold_main_drop; [reflexivity|discriminate].
  - destruct c as [k|].
    + eapply (av_break _ _ [_] TMain OtherError); [reflexivity|nomeas|discriminate|eexists; eassumption|reflexivity|]. apply hold_main_drop; [reflexivity|discriminate].
    + eapply (av_break _ _ [] TMain OtherError); [reflexivity|nomeas|discriminate|eexists; eassumption|reflexivity|]. apply hold_main_drop; [reflexivity|discriminate].
  - eapply (av_none _ _ [_]); [reflexivity|nomeas|reflexivity|]. eapply hold_main; [eassumption|reflexivity|discriminate|discriminate].
  - eapply (av_none _ _ []); [reflexivity|apply no_meas_nil|reflexivity|]. eapply hold_main; [eassumption| |discriminate|discriminate]. intros j; cbn; heq j k; reflexivity.
  - eapply (av_none _ _ []); [reflexivity|apply no_meas_nil|reflexivity|]. eapply hold_main; [eassumption| |discriminate|discriminate]. intros j; cbn; heq j k; reflexivity.
  - eapply (av_none _ _ []); [reflexivity|apply no_meas_nil|reflexivity|]. eapply hold_main; [eassumption| |discriminate|discriminate]. intros j; cbn; heq j k; reflexivity.
  - eapply (av_none _ _ [_; _]); [reflexivity|nomeas|reflexivity|]. eapply hold_main; [eassumption|reflexivity|discriminate|discriminate].
Qed.

Lemma inv3_move s s' : inv3 s -> adc_move s s' -> inv3 s'.
Proof.
  intros A H. destruct H as [l El L Ea Hh|l t0 El L E0 Ea Hh|l t0 x El L Hx H0 Ea Hh|l t0 f El L Hf H0 Ea Hh].
  - assert (BR: broke (s_log s') <-> broke (s_log s)).
    { rewrite El. split; intros (t & f & Hi & Hf); exists t, f; (split; [|exact Hf]); [|apply in_or_app; now right].
      apply in_app_or in Hi. destruct Hi as [Hi|Hi]; [now apply L in Hi|exact Hi]. }
    split.
    + intros t. rewrite Hh, Ea. apply (a_hold s A).
    + intros t. rewrite Hh, Ea, BR. apply (a_free s A).
    + rewrite BR. intros B. destruct (a_broke s A B) as (t & E & Hn). exists t. now rewrite Ea, Hh.
    + intros t f l1 l2 Hf E t'. rewrite El in E. apply split_more in E. destruct E as [(d & -> & E)|E]; [|now apply L in E].
      destruct (a_after s A t f d l2 Hf E t') as [K1 K2]. split; [|intros f']; intros Hi; apply in_app_or in Hi; destruct Hi as [Hi|Hi];
        try (now apply L in Hi); [auto|now apply K2 in Hi].
  - assert (NB: ~ broke (s_log s)) by (intros B; destruct (a_broke s A B) as (t & E & _); congruence).
    assert (BR: ~ broke (s_log s')).
    { rewrite El. intros (t & f & Hi & Hf). apply NB. exists t, f. split; [|exact Hf].
      apply in_app_or in Hi. destruct Hi as [Hi|Hi]; [now apply L in Hi|exact Hi]. }
    split.
    + intros t. rewrite Hh, Ea. intros [K| ->]; [|reflexivity]. apply (a_hold s A) in K. congruence.
    + intros t. rewrite Ea. intros E. injection E as ->. left. apply Hh. now right.
    + intros B. contradiction.
    + intros t f l1 l2 Hf E. exfalso. apply BR. exists t, f. split; [|exact Hf]. rewrite E. apply in_or_app. right. now left.
  - pose proof (a_hold s A t0 H0) as E0.
    assert (NB: ~ broke (s_log s)) by (intros B; destruct (a_broke s A B) as (t & E & Hn); congruence).
    assert (BR: ~ broke (s_log s')).
    { rewrite El. intros (t & f & Hi & Hf). apply in_app_or in Hi. destruct Hi as [Hi|[Hi|Hi]]; [now apply L in Hi| |].
      - destruct Hx; subst x; [discriminate|]. injection Hi as _ <-. contradiction.
      - apply NB. now exists t, f. }
    split.
    + intros t. rewrite Hh. intros [K Hn]. apply (a_hold s A) in K. congruence.
    + intros t. rewrite Ea. discriminate.
    + intros B. contradiction.
    + intros t f l1 l2 Hf E. exfalso. apply BR. exists t, f. split; [|exact Hf]. rewrite E. apply in_or_app. right. now left.
  - pose proof (a_hold s A t0 H0) as E0.
    assert (NB: ~ broke (s_log s)) by (intros B; destruct (a_broke s A B) as (t & E & Hn); congruence).
    split.
    + intros t. rewrite Hh, Ea. intros [K _]. now apply (a_hold s A).
    + intros t _. right. exists t0, f. split; [|exact Hf]. rewrite El. apply in_or_app. right. now left.
    + intros _. exists t0. rewrite Ea, Hh. split; [exact E0|]. intros [_ K]. now contradiction K.
    + intros t g l1 l2 Hg E t'. rewrite El in E. apply split_more in E. destruct E as [(d & -> & E)|E]; [|now apply L in E].
      destruct d as [|y d].
      * rewrite app_nil_r. apply L.
      * injection E as _ E. exfalso. apply NB. exists t, g. split; [|exact Hg]. rewrite E. apply in_or_app. right. now left.
Qed.
Lemma inv3_reachable s : reachable s -> inv s /\ inv3 s.
Proof.
  revert s. apply reach_ind; [intros p; split; [apply inv0|apply inv30]|]. intros s1 s2 [I J] [s' H|k s' H]; split.
  - eapply inv_mstep; eassumption.
  - eapply inv3_move; [exact J|]. now apply mstep_adc.
  - eapply inv_hstep; eassumption.
  - eapply inv3_move; [exact J|]. now apply (hstep_adc k).
Qed.

(* ---------- C45 ---------- *)
(** After an I2C error no measurement ever ends again. *)
Lemma broken_forever s t f l1 l2 t' : reachable s -> f <> Refused -> s_log s = l1 ++ MeasErr t f :: l2 ->
  ~ In (MeasOk t') l1.
Proof. intros H Hf E. apply (a_after s (proj2 (inv3_reachable s H)) t f l1 l2 Hf E t'). Qed.
(** The thread waiting for the lock waits forever. *)
Lemma blocked_forever s k s' : reachable s -> broke (s_log s) -> h_pc (s_heaters s k) = HMeasure -> steps s s' ->
  h_pc (s_heaters s' k) = HMeasure /\ exists l, s_log s' = l ++ s_log s /\ forall b p, ~ In (Power k b p) l.
Proof.
  intros H B Hp Hs. induction Hs as [|s1 s2 Hs IH Hst]; [split; [exact Hp|exists []; split; [reflexivity|intros b p []]]|].
  assert (H1: reachable s1) by exact (reachable_steps _ _ H Hs). destruct IH as (Hp1 & l & El & Hl).
  destruct (inv3_reachable s1 H1) as [I A]. destruct (inv2_reachable s1 H1) as [_ J].
  assert (B1: broke (s_log s1)).
  { destruct B as (t & f & Hi & Hf). exists t, f. split; [|exact Hf]. rewrite El. apply in_or_app. now right. }
  destruct (a_broke s1 A B1) as (t & Ea & _).
  assert (LK: h_lock (s_heaters s1 k) = Some (THeat k)) by (apply (i_busy s1 I); now rewrite Hp1).
  assert (Hrun: s_main s1 <> MStopOff k).
  { intros E. destruct (i_off s1 I k) as [_ K]; [auto|]. rewrite Hp1 in K. discriminate. }
  destruct Hst as [s2 Hst|j s2 Hst].
  - destruct (mstep_heater s1 s2 k I Hst) as [(_ & E & _)|[E|[(_ & E & _)|[(E & _)|(E & _)]]]]; try congruence.
    + rewrite E. split; [exact Hp1|].
      assert (Q: forall d, s_log s2 = d ++ s_log s1 -> (forall b p, ~ In (Power k b p) d) -> exists l, s_log s2 = l ++ s_log s /\ forall b p, ~ In (Power k b p) l).
      { intros d Ed Hd. exists (d ++ l). split; [now rewrite Ed, El, app_assoc|]. intros b p Hi. apply in_app_or in Hi. destruct Hi as [Hi|Hi]; [now apply Hd in Hi|now apply Hl in Hi]. }
      destruct Hst; try destruct c; unfold not_measured, measured; cbn in *;
      match type of Q with
      | context [?a :: ?b :: s_log s1 = _] => apply (Q [a; b]); [reflexivity|]
      | context [?a :: s_log s1 = _] => apply (Q [a]); [reflexivity|]
      | context [s_log s1 = _] => apply (Q []); [reflexivity|]
      end; intros b q Hin; repeat destruct Hin as [Hin|Hin]; try discriminate; try contradiction.
      injection Hin as -> _ _. contradiction.
    + pose proof (i_main2 s1 I k (or_introl E)). congruence.
    + pose proof (i_main2 s1 I k (or_intror E)). congruence.
  - assert (Hj: j <> k) by (intros ->; destruct Hst; congruence).
    assert (Ek: s_heaters s2 k = s_heaters s1 k) by (destruct Hst; cbn; rewrite upd_other; auto).
    rewrite Ek. split; [exact Hp1|].
    assert (exists d, s_log s2 = d ++ s_log s1 /\ forall b p, ~ In (Power k b p) d) as (d & Ed & Hd).
    { destruct Hst; eexists; (split; [reflexivity|]); intros b q Hin; cbn in Hin; repeat destruct Hin as [Hin|Hin]; try discriminate; try contradiction; injection Hin; intros; congruence. }
    exists (d ++ l). split; [now rewrite Ed, El, app_assoc|]. intros b p Hi. apply in_app_or in Hi. destruct Hi as [Hi|Hi]; [now apply Hd in Hi|now apply Hl in Hi].
Qed.

(* ---------- progress ---------- *)
Definition no_err (l : list (happening N)) : Prop := forall t f, ~ In (MeasErr t f) l.
Lemma no_err_app l1 l2 : no_err l1 -> no_err l2 -> no_err (l1 ++ l2).
Proof. intros H1 H2 t f H. apply in_app_or in H. destruct H as [H|H]; [now apply H1 in H|now apply H2 in H]. Qed.
Lemma not_broke_app l l' : no_err l -> ~ broke l' -> ~ broke (l ++ l').
Proof. intros H1 H2 (t & f & Hi & Hf). apply in_app_or in Hi. destruct Hi as [Hi|Hi]; [now apply H1 in Hi|]. apply H2. now exists t, f. Qed.

Section PROGRESS.
Hypothesis some_reading : exists v, reading v.
Hypothesis some_clock : exists t, clock t.

Lemma measured_step s k : h_pc (s_heaters s k) = HAdc -> exists s' p, step s s' /\
  s_adc s' = None /\ s_main s' = s_main s /\ s_log s' = MeasOk (THeat k) :: s_log s /\ h_pc (s_heaters s' k) = HControl p /\
  forall j, j <> k -> s_heaters s' j = s_heaters s j.
Proof.
  intros Hp. destruct some_reading as [v Hv]. destruct some_clock as [t Ht].
  destruct (pid_update (h_pid (s_heaters s k)) v t) as [p' o] eqn:E.
  eexists. exists (mul o (ofZ 100)). split; [apply (step_heater _ _ _ s k); eapply h_measured; eassumption|].
  cbn. split; [reflexivity|]. split; [reflexivity|]. split; [reflexivity|]. rewrite upd_same. split; [reflexivity|].
  intros j Hj. now rewrite upd_other.
Qed.
(** The holder of the lock can end its measurement. *)
Lemma free_adc s : reachable s -> ~ broke (s_log s) -> exists s' l, steps s s' /\ s_adc s' = None /\ s_log s' = l ++ s_log s /\ no_err l /\
  ((forall c, s_main s <> MAdc c) -> s_main s' = s_main s) /\ forall j, h_pc (s_heaters s j) <> HAdc -> s_heaters s' j = s_heaters s j.
Proof.
  intros H NB. destruct (inv3_reachable s H) as [I A]. destruct (s_adc s) as [t|] eqn:Ea.
  2: { exists s, []. split; [constructor|]. split; [exact Ea|]. split; [reflexivity|]. split; [intros t f []|]. auto. }
  destruct (a_free s A t Ea) as [Hh|B]; [|contradiction]. destruct t as [|k]; cbn in Hh.
  - destruct Hh as [c Hm]. exists (measured (with_adc s None) c).
    assert (Hs: steps s (measured (with_adc s None) c)) by (apply steps_one, step_main, m_measured, Hm).
    destruct c as [k|].
    + exists [Constructed k; MeasOk TMain]. split; [exact Hs|]. split; [reflexivity|]. split; [reflexivity|].
      split; [intros t f [E|[E|[]]]; discriminate|]. split; [|reflexivity]. intros K. now apply K in Hm.
    + exists [MeasOk TMain]. split; [exact Hs|]. split; [reflexivity|]. split; [reflexivity|].
      split; [intros t f [E|[]]; discriminate|]. split; [|reflexivity]. intros K. now apply K in Hm.
  - destruct (measured_step s k Hh) as (s' & p & Hs & E1 & E2 & E3 & E4 & E5).
    exists s', [MeasOk (THeat k)]. split; [apply steps_one, Hs|]. split; [exact E1|]. split; [exact E3|].
    split; [intros t f [E|[]]; discriminate|]. split; [auto|]. intros j Hj. apply E5. intros ->. contradiction.
Qed.

Definition waiting (s : sys) (t : tid) : Prop :=
  match t with TMain => exists c, s_main s = MMeasure c | THeat k => h_pc (s_heaters s k) = HMeasure end.
Lemma can_measure s t : reachable s -> ~ broke (s_log s) -> waiting s t ->
  exists s' l, steps s s' /\ s_log s' = l ++ s_log s /\ In (MeasOk t) l /\ no_err l.
Proof.
  intros H NB W. destruct (free_adc s H NB) as (s1 & l1 & Hs & Ea & El & Hl & Hm & Hh).
  destruct t as [|k]; cbn in W.
  - destruct W as [c W]. rewrite W in Hm. specialize (Hm ltac:(discriminate)).
    set (s2 := with_main (with_adc s1 (Some TMain)) (MAdc c) []).
    assert (H2: step s1 s2) by (apply step_main; now apply m_adc).
    assert (H3: step s2 (measured (with_adc s2 None) c)) by (apply step_main; now apply m_measured).
    exists (measured (with_adc s2 None) c). destruct c as [k|].
    + exists ([Constructed k; MeasOk TMain] ++ l1). split; [eapply steps_more; [eapply steps_more; eassumption|eassumption]|].
      split; [cbn; now rewrite El|]. split; [right; now left|]. apply no_err_app; [|exact Hl]. intros t f [E|[E|[]]]; discriminate.
    + exists ([MeasOk TMain] ++ l1). split; [eapply steps_more; [eapply steps_more; eassumption|eassumption]|].
      split; [cbn; now rewrite El|]. split; [now left|]. apply no_err_app; [|exact Hl]. intros t f [E|[]]; discriminate.
  - assert (Ek: s_heaters s1 k = s_heaters s k) by (apply Hh; rewrite W; discriminate).
    assert (H2: step s1 (with_heater (with_adc s1 (Some (THeat k))) k (set_pc (s_heaters s1 k) HAdc) [])).
    { apply (step_heater _ _ _ s1 k). apply h_adc; [now rewrite Ek|exact Ea]. }
    set (s2 := with_heater _ _ _ _) in H2. destruct (measured_step s2 k) as (s3 & p & H3 & _ & _ & E3 & _).
    { unfold s2. cbn. now rewrite upd_same. }
    exists s3, (MeasOk (THeat k) :: l1). split; [eapply steps_more; [eapply steps_more; eassumption|eassumption]|].
    split; [rewrite E3; cbn; now rewrite El|]. split; [now left|]. apply (no_err_app [MeasOk (THeat k)]); [|exact Hl]. intros t f [E|[]]; discriminate.
Qed.

(** The thread can leave the guarded part. *)
Definition can_leave (s : sys) (k : nat) : Prop :=
  exists s' l, steps s s' /\ s_main s' = MStopAcq k /\ h_lock (s_heaters s' k) = None /\ s_log s' = l ++ s_log s /\ no_err l.
Lemma leave_cons s s1 k l : steps s s1 -> s_log s1 = l ++ s_log s -> no_err l -> can_leave s1 k -> can_leave s k.
Proof.
  intros H El Hl (s' & l' & H1 & H2 & H3 & H4 & H5). exists s', (l' ++ l). split; [eapply steps_trans; eassumption|].
  split; [exact H2|]. split; [exact H3|]. split; [now rewrite H4, El, app_assoc|]. now apply no_err_app.
Qed.
Lemma leave_release s k : s_main s = MStopAcq k -> h_pc (s_heaters s k) = HRelease -> can_leave s k.
Proof.
  intros Hm Hp. eexists _, []. split; [apply steps_one, (step_heater _ _ _ s k), h_release, Hp|].
  split; [exact Hm|]. split; [cbn; rewrite upd_same; reflexivity|]. split; [reflexivity|intros t f []].
Qed.
Lemma leave_control s k p : s_main s = MStopAcq k -> h_pc (s_heaters s k) = HControl p -> can_leave s k.
Proof.
  intros Hm Hp. eapply (leave_cons s _ k [Power k false p]); [apply steps_one, (step_heater _ _ _ s k), h_control, Hp|reflexivity|intros t f [E|[]]; discriminate|].
  apply leave_release; [exact Hm|]. cbn. rewrite upd_same. reflexivity.
Qed.
Lemma leave_adc s k : s_main s = MStopAcq k -> h_pc (s_heaters s k) = HAdc -> can_leave s k.
Proof.
  intros Hm Hp. destruct (measured_step s k Hp) as (s' & p & H & _ & E2 & E3 & E4 & _).
  eapply (leave_cons s s' k [MeasOk (THeat k)]); [apply steps_one, H|exact E3|intros t f [E|[]]; discriminate|].
  apply (leave_control s' k p); [congruence|exact E4].
Qed.
Lemma leave_measure s k : reachable s -> ~ broke (s_log s) -> s_main s = MStopAcq k -> h_pc (s_heaters s k) = HMeasure -> can_leave s k.
Proof.
  intros H NB Hm Hp. destruct (free_adc s H NB) as (s1 & l1 & Hs & Ea & El & Hl & Hm1 & Hh).
  rewrite Hm in Hm1. specialize (Hm1 ltac:(discriminate)).
  assert (Ek: s_heaters s1 k = s_heaters s k) by (apply Hh; rewrite Hp; discriminate).
  apply (leave_cons s s1 k l1 Hs El Hl).
  eapply (leave_cons s1 _ k []); [apply steps_one, (step_heater _ _ _ s1 k), h_adc; [now rewrite Ek|exact Ea]|reflexivity|intros t f []|].
  apply leave_adc; [exact Hm1|]. cbn. rewrite upd_same. reflexivity.
Qed.
Lemma leave_check s k : reachable s -> ~ broke (s_log s) -> s_main s = MStopAcq k -> h_pc (s_heaters s k) = HCheck ->
  h_run (s_heaters s k) = true -> can_leave s k.
Proof.
  intros H NB Hm Hp Hr.
  assert (H1: step s (with_heater s k (set_pc (s_heaters s k) HMeasure) [])) by (apply (step_heater _ _ _ s k), h_check_run; assumption).
  eapply (leave_cons s _ k []); [apply steps_one, H1|reflexivity|intros t f []|].
  apply leave_measure; [eapply reachable_steps; [exact H|apply steps_one, H1]|exact NB|exact Hm|]. cbn. rewrite upd_same. reflexivity.
Qed.
Lemma can_release s k : reachable s -> ~ broke (s_log s) -> ~ meas_err s k -> s_main s = MStopAcq k -> can_leave s k.
Proof.
  intros H NB NE Hm. destruct (inv2_reachable s H) as [I J].
  destruct (h_lock (s_heaters s k)) as [[|j]|] eqn:El.
  - apply (i_main1 s I) in El. rewrite Hm in El. destruct El; discriminate.
  - pose proof (i_own s I k j El) as ->.
    assert (Hr: h_run (s_heaters s k) = true).
    { destruct (h_run (s_heaters s k)) eqn:E; [reflexivity|]. apply (r_run s J) in E. rewrite Hm in E.
      destruct E as [E|[E|E]]; try discriminate. pose proof (i_stop s I k (or_introl Hm)) as K. now apply (i_rec s I) in K. }
    destruct (r_lock s J k El) as [Hb|[[_ E]|E]]; [|congruence|contradiction].
    destruct (h_pc (s_heaters s k)) eqn:Ep; try discriminate.
    + now apply leave_check.
    + now apply leave_measure.
    + now apply leave_adc.
    + exfalso. apply NE, (r_fail s J). auto.
    + exfalso. apply NE, (r_fail s J). auto.
    + now apply (leave_control s k p).
    + now apply leave_release.
  - exists s, []. split; [constructor|]. split; [exact Hm|]. split; [exact El|]. split; [reflexivity|intros t f []].
Qed.

Lemma stop_off s k : s_main s = MStopOff k -> exists s', steps s s' /\ s_log s' = StopReturned k :: Power k true zero :: s_log s.
Proof. intros H. eexists. split; [apply steps_one, step_main, m_stop_off, H|reflexivity]. Qed.
Lemma stop_rel s k : s_main s = MStopRel k -> exists s', steps s s' /\ s_log s' = StopReturned k :: Power k true zero :: s_log s.
Proof.
  intros H. edestruct stop_off as (s' & Hs & E); [|exists s'; split; [eapply steps_cons; [apply step_main, m_stop_release, H|exact Hs]|exact E]]. reflexivity.
Qed.
Lemma stop_set s k : s_main s = MStopSet k -> exists s', steps s s' /\ s_log s' = StopReturned k :: Power k true zero :: s_log s.
Proof.
  intros H. edestruct stop_rel as (s' & Hs & E); [|exists s'; split; [eapply steps_cons; [apply step_main, m_stop_set, H|exact Hs]|exact E]]. reflexivity.
Qed.
Lemma stop_acq s k : s_main s = MStopAcq k -> h_lock (s_heaters s k) = None -> exists s', steps s s' /\ s_log s' = StopReturned k :: Power k true zero :: s_log s.
Proof.
  intros H Hl. edestruct stop_set as (s' & Hs & E); [|exists s'; split; [eapply steps_cons; [apply step_main, m_stop_acquire; [exact H|exact Hl]|exact Hs]|exact E]]. reflexivity.
Qed.
Lemma stop_can_return s k : reachable s -> ~ broke (s_log s) -> ~ meas_err s k -> stopping (s_main s) k ->
  exists s' l, steps s s' /\ s_log s' = StopReturned k :: Power k true zero :: l ++ s_log s /\ no_err l.
Proof.
  intros H NB NE [Hm|[Hm|[Hm|Hm]]].
  - destruct (can_release s k H NB NE Hm) as (s1 & l & H1 & H2 & H3 & H4 & H5).
    destruct (stop_acq s1 k H2 H3) as (s' & Hs & E). exists s', l. split; [eapply steps_trans; eassumption|]. rewrite E, H4. auto.
  - destruct (stop_set s k Hm) as (s' & Hs & E). exists s', []. split; [exact Hs|]. split; [exact E|intros t f []].
  - destruct (stop_rel s k Hm) as (s' & Hs & E). exists s', []. split; [exact Hs|]. split; [exact E|intros t f []].
  - destruct (stop_off s k Hm) as (s' & Hs & E). exists s', []. split; [exact Hs|]. split; [exact E|intros t f []].
Qed.
End PROGRESS.

(* ---------- what the machine's record says (C63) ---------- *)
Definition lost (s : sys) (k : nat) : Prop := In (NewRaised k) (s_log s).
Definition kept (s : sys) (k : nat) : Prop :=
  lost s k \/ stop_done s k \/ s_rec s (h_id (s_heaters s k)) = Some k \/ s_main s = MMeasure (Some k) \/ s_main s = MAdc (Some k).

Lemma hstep_id k j s s' : hstep reading clock k s s' -> h_id (s_heaters s' j) = h_id (s_heaters s j).
Proof. intros H. destruct H; cbn; heq j k; reflexivity. Qed.
Lemma in_log s s' x : step s s' -> In x (s_log s) -> In x (s_log s').
Proof. intros H Hi. destruct (steps_log s s' (steps_one _ _ H)) as (l & ->). apply in_or_app. now right. Qed.

Lemma kept_step s s' : inv s -> (forall k, k < s_next s -> kept s k) -> step s s' -> forall k, k < s_next s' -> kept s' k.
Proof.
  intros I K H k Hk.
  assert (L: lost s k \/ stop_done s k -> kept s' k).
  { intros [E|E]; [left|right; left]; eapply in_log; eassumption. }
  assert (Kk: k < s_next s -> kept s k) by auto. clear K.
  destruct H as [s' H|j s' H].
  2: { assert (s_next s' = s_next s) as E1 by (destruct H; reflexivity). rewrite E1 in Hk. destruct (Kk Hk) as [E|[E|E]]; auto.
       right. right. rewrite (hstep_id _ _ _ _ H). destruct H; exact E. }
  destruct H as [h target now p Hm Hr _ _ Hp|Hm|c Hm Ha|c Hm|c Hm|c Hm|c Hm|h k' Hm Hr|k' Hm Hl|k' Hm|k' Hm|k' Hm].
  - cbn in Hk. destruct (Nat.eq_dec k (s_next s)) as [->|Hne]; [right; right; right; now left|].
    destruct (Kk ltac:(lia)) as [E|[E|E]]; auto. rewrite Hm in E. destruct E as [E|[E|E]]; try discriminate.
    right. right. left. cbn. now rewrite upd_other.
  - destruct (Kk Hk) as [E|[E|E]]; auto. rewrite Hm in E. destruct E as [E|[E|E]]; try discriminate. right. right. now left.
  - destruct (Kk Hk) as [E|[E|E]]; auto. rewrite Hm in E. destruct E as [E|[E|E]]; try discriminate; [right; right; now left|].
    injection E as ->. right. right. right. right. reflexivity.
  - destruct c as [k0|]; cbn [measured] in *.
    + destruct (i_new s I k0 (or_intror Hm)) as (N1 & N2 & N3). destruct (Nat.eq_dec k k0) as [->|Hne].
      { right. right. left. cbn. apply upd_rec_same. }
      destruct (Kk Hk) as [E|[E|E]]; auto. rewrite Hm in E. destruct E as [E|[E|E]]; try discriminate; [|congruence].
      right. right. left. cbn. rewrite upd_rec_other; [exact E|]. intros E2. congruence.
    + destruct (Kk Hk) as [E|[E|E]]; auto. rewrite Hm in E. destruct E as [E|[E|E]]; try discriminate. right. right. now left.
  - destruct (Kk Hk) as [E|[E|E]]; auto. rewrite Hm in E. destruct E as [E|[E|E]]; try discriminate; [right; right; now left|].
    injection E as ->. left. now left.
  - destruct (Kk Hk) as [E|[E|E]]; auto. rewrite Hm in E. destruct E as [E|[E|E]]; try discriminate; [right; right; now left|].
    injection E as ->. left. now left.
  - destruct (Kk Hk) as [E|[E|E]]; auto. rewrite Hm in E. destruct E as [E|[E|E]]; try discriminate; [right; right; now left|].
    injection E as ->. left. now left.
  - destruct (Kk Hk) as [E|[E|E]]; auto. rewrite Hm in E. destruct E as [E|[E|E]]; try discriminate. right. right. now left.
  - destruct (Kk Hk) as [E|[E|E]]; auto. rewrite Hm in E. destruct E as [E|[E|E]]; try discriminate. right. right. left.
    cbn. heq k k'; exact E.
  - destruct (Kk Hk) as [E|[E|E]]; auto. rewrite Hm in E. destruct E as [E|[E|E]]; try discriminate. right. right. left.
    cbn. heq k k'; exact E.
  - destruct (Kk Hk) as [E|[E|E]]; auto. rewrite Hm in E. destruct E as [E|[E|E]]; try discriminate. right. right. left.
    cbn. heq k k'; exact E.
  - destruct (Nat.eq_dec k k') as [->|Hne]; [right; left; now left|].
    destruct (Kk Hk) as [E|[E|E]]; auto. rewrite Hm in E. destruct E as [E|[E|E]]; try discriminate. right. right. left.
    cbn. pose proof (i_stop s I k') as Q. rewrite Hm in Q. specialize (Q ltac:(unfold stopping; auto)).
    rewrite upd_rec_other; [exact E|]. intros E2. congruence.
Qed.
Lemma kept_reachable s k : reachable s -> k < s_next s -> kept s k.
Proof.
  intros H. enough (inv s /\ forall k, k < s_next s -> kept s k) as [_ K] by apply K.
  revert s H k. refine (fun s H _ => _). revert s H. apply reach_ind.
  - intros p. split; [apply inv0|]. cbn. lia.
  - intros s s' [I K] H. split; [|eapply kept_step; eassumption]. destruct H; [eapply inv_mstep|eapply inv_hstep]; eassumption.
Qed.

(** Created events tell the heater a number stands for. *)
Definition made_inv (s : sys) : Prop :=
  (forall k h, In (Created k h) (s_log s) -> k < s_next s /\ h_id (s_heaters s k) = h) /\
  (forall k b p, In (Power k b p) (s_log s) -> k < s_next s) /\
  (forall k, k < s_next s -> In (Created k (h_id (s_heaters s k))) (s_log s)).
Lemma made_reachable s : reachable s -> inv s /\ made_inv s.
Proof.
  revert s. apply reach_ind.
  { intros p. split; [apply inv0|]. split; [intros k h []|]. split; [intros k b q []|]. cbn. lia. }
  intros s s' [I (M1 & M2 & M3)] H. split; [destruct H; [eapply inv_mstep|eapply inv_hstep]; eassumption|].
  destruct H as [s' H|j s' H].
  2: { assert (En: s_next s' = s_next s) by (destruct H; reflexivity).
       assert (Np: j < s_next s).
       { destruct (Nat.lt_ge_cases j (s_next s)) as [L|L]; [exact L|]. apply (i_fresh s I) in L. destruct L as [L _]. destruct H; congruence. }
       assert (exists l, s_log s' = l ++ s_log s /\ (forall k h, ~ In (Created k h) l) /\ forall k b p, In (Power k b p) l -> k = j) as (l & El & L1 & L2).
       { destruct H; eexists; (split; [reflexivity|]); (split; [intros k0 h Hin|intros k0 b q Hin]); cbn in Hin; repeat destruct Hin as [Hin|Hin]; try discriminate; try contradiction;
           injection Hin; auto. }
       split; [|split].
       - intros k h Hi. rewrite El in Hi. apply in_app_or in Hi. destruct Hi as [Hi|Hi]; [now apply L1 in Hi|]. rewrite En, (hstep_id _ _ _ _ H). auto.
       - intros k b p Hi. rewrite El in Hi. apply in_app_or in Hi. rewrite En. destruct Hi as [Hi|Hi]; [apply L2 in Hi; congruence|eauto].
       - intros k. rewrite En, (hstep_id _ _ _ _ H). intros Hk. rewrite El. apply in_or_app. right. auto. }
  destruct H as [h target now p Hm Hr _ _ Hp|Hm|c Hm Ha|c Hm|c Hm|c Hm|c Hm|h k' Hm Hr|k' Hm Hl|k' Hm|k' Hm|k' Hm].
  - split; [|split]; cbn.
    + intros k h' [E|E]; [injection E as <- <-; rewrite upd_same; split; [lia|reflexivity]|]. apply M1 in E. rewrite upd_other by lia. split; [lia|tauto].
    + intros k b q [E|E]; [discriminate|]. apply M2 in E. lia.
    + intros k Hk. destruct (Nat.eq_dec k (s_next s)) as [->|Hne]; [rewrite upd_same; now left|]. rewrite upd_other by exact Hne. right. apply M3. lia.
  - split; [|split]; assumption.
  - split; [|split]; assumption.
  - destruct c; (split; [|split]); cbn; intros; repeat match goal with E : _ \/ _ |- _ => destruct E as [E|E] end; try discriminate; eauto.
  - destruct c; (split; [|split]); cbn; intros; repeat match goal with E : _ \/ _ |- _ => destruct E as [E|E] end; try discriminate; eauto.
  - destruct c; (split; [|split]); cbn; intros; repeat match goal with E : _ \/ _ |- _ => destruct E as [E|E] end; try discriminate; eauto.
  - destruct c; (split; [|split]); cbn; intros; repeat match goal with E : _ \/ _ |- _ => destruct E as [E|E] end; try discriminate; eauto.
  - split; [|split]; cbn; intros; repeat match goal with E : _ \/ _ |- _ => destruct E as [E|E] end; try discriminate; eauto.
  - split; [|split]; cbn; [intros k h Hi; heq k k'; now apply M1|exact M2|intros k Hk; heq k k'; now apply M3].
  - split; [|split]; cbn; [intros k h Hi; heq k k'; now apply M1|exact M2|intros k Hk; heq k k'; now apply M3].
  - split; [|split]; cbn; [intros k h Hi; heq k k'; now apply M1|exact M2|intros k Hk; heq k k'; now apply M3].
  - split; [|split]; cbn; intros k b; [..|intros]; try (intros q; intros Hi); try (intros Hi); repeat match goal with E : _ \/ _ |- _ => destruct E as [E|E] end; try discriminate; eauto.
    injection Hi as <- <- <-. pose proof (i_stop s I k') as Q. rewrite Hm in Q. specialize (Q ltac:(unfold stopping; auto)). now apply (i_rec s I) in Q.
Qed.

Lemma off_means_off s h k : reachable s -> s_main s = MIdle -> s_rec s h = None -> In (Created k h) (s_log s) -> ~ In (NewRaised k) (s_log s) ->
  exists l1 l2, s_log s = l1 ++ StopReturned k :: Power k true zero :: l2 /\ forall b p, ~ In (Power k b p) l1.
Proof.
  intros H Hm Hr Hc Hn. destruct (made_reachable s H) as [I (M1 & _)]. destruct (M1 k h Hc) as [Hk <-].
  destruct (kept_reachable s k H Hk) as [E|[E|[E|[E|E]]]]; [contradiction| |congruence..].
  apply in_split in E. destruct E as (l1 & l2 & E). destruct (i_quiet s I k l1 l2 E) as [Q1 (l3 & ->)]. eauto.
Qed.
Lemma one_driver s h k k' : reachable s -> In (Created k h) (s_log s) -> In (Created k' h) (s_log s) -> k <> k' ->
  ~ In (NewRaised k) (s_log s) -> ~ In (NewRaised k') (s_log s) ->
  In (StopReturned k) (s_log s) \/ In (StopReturned k') (s_log s).
Proof.
  intros H Hc Hc' Hne Hn Hn'. destruct (made_reachable s H) as [I (M1 & _)].
  destruct (M1 k h Hc) as [Hk E1]. destruct (M1 k' h Hc') as [Hk' E2].
  destruct (kept_reachable s k H Hk) as [E|[E|E]]; [contradiction|auto|].
  destruct (kept_reachable s k' H Hk') as [E'|[E'|E']]; [contradiction|auto|]. exfalso. apply Hne.
  pose proof (i_new s I k) as K. pose proof (i_new s I k') as K'. rewrite E1 in *. rewrite E2 in *.
  destruct E as [E|E], E' as [E'|E']; try congruence.
  - apply K' in E'. destruct E' as (_ & E' & _). congruence.
  - apply K in E. destruct E as (_ & E & _). congruence.
  - destruct E as [E|E], E' as [E'|E']; congruence.
Qed.

(* ---------- powers sent (C39) ---------- *)
Section POWERS.
Variable okpid : pid N -> Prop.
Variable okpow : N -> Prop.
Hypothesis new_ok : forall h target now p, reading target -> clock now -> (let '(kp, ki, kd) := gains h in pid_new target kp ki kd now) = Ok p -> okpid p.
Hypothesis update_ok : forall p v now p' o, okpid p -> reading v -> clock now -> pid_update p v now = (p', o) -> okpid p' /\ okpow (mul o (ofZ 100)).
Hypothesis zero_ok : okpow zero.

Definition inv4 (s : sys) : Prop :=
  (forall k, k < s_next s -> okpid (h_pid (s_heaters s k))) /\
  (forall k p, h_pc (s_heaters s k) = HControl p -> okpow p) /\
  (forall k b p, In (Power k b p) (s_log s) -> okpow p).
Lemma powers_ok s : reachable s -> inv s /\ inv4 s.
Proof.
  revert s. apply reach_ind.
  { intros p. split; [apply inv0|]. split; [cbn; lia|]. split; [discriminate|intros k b q []]. }
  intros s s' [I (M1 & M2 & M3)] H. split; [destruct H; [eapply inv_mstep|eapply inv_hstep]; eassumption|].
  destruct H as [s' H|j s' H].
  - destruct (mstep_log s s' H) as (l & El & L). split; [|split].
    + intros k Hk. destruct (mstep_heater s s' k I H) as [(-> & _)|[E|[(E0 & _ & E)|[(E0 & E)|(E0 & E)]]]].
      * destruct H; try (destruct c); cbn in Hk; try lia. cbn. rewrite upd_same. cbn. eapply new_ok; eassumption.
      * rewrite E. apply M1. assert (Hn: s_next s' = s_next s \/ s_next s' = S (s_next s)) by (destruct H; try destruct c; cbn; auto).
        destruct Hn as [Hn|Hn]; [congruence|]. destruct (Nat.eq_dec k (s_next s)) as [->|Hne]; [|lia].
        destruct H; try destruct c; cbn in Hn; try lia. cbn in E. rewrite upd_same in E. destruct (i_fresh s I (s_next s) (le_n _)) as (F & _). rewrite <- E in F. discriminate.
      * rewrite E. cbn. apply M1. pose proof (i_stop s I k (or_introl E0)) as Q. now apply (i_rec s I) in Q.
      * rewrite E. cbn. apply M1. pose proof (i_stop s I k ltac:(unfold stopping; auto)) as Q. now apply (i_rec s I) in Q.
      * rewrite E. cbn. apply M1. pose proof (i_stop s I k ltac:(unfold stopping; auto)) as Q. now apply (i_rec s I) in Q.
    + intros k p Hp. destruct (mstep_heater s s' k I H) as [(_ & _ & h & q & E)|[E|[(_ & _ & E)|[(_ & E)|(_ & E)]]]]; rewrite E in Hp; cbn in Hp; try discriminate; now apply M2 in Hp.
    + intros k b p Hi. rewrite El in Hi. apply in_app_or in Hi. destruct Hi as [Hi|Hi]; [|eauto]. apply (L k) in Hi. destruct Hi as [_ ->]. exact zero_ok.
  - assert (Np: j < s_next s).
    { destruct (Nat.lt_ge_cases j (s_next s)) as [L|L]; [exact L|]. apply (i_fresh s I) in L. destruct L as [L _]. destruct H; congruence. }
    assert (En: s_next s' = s_next s) by (destruct H; reflexivity).
    assert (Ho: forall i, i <> j -> s_heaters s' i = s_heaters s i) by (intros i Hi; destruct H; cbn; rewrite upd_other; auto).
    split; [|split].
    + intros k. rewrite En. intros Hk. destruct (Nat.eq_dec k j) as [->|Hne]; [|rewrite Ho by exact Hne; auto].
      destruct H; cbn; rewrite upd_same; cbn; auto. eapply update_ok; [apply M1, Hk|..]; eassumption.
    + intros k q Hq. destruct (Nat.eq_dec k j) as [->|Hne]; [|rewrite Ho in Hq by exact Hne; eauto].
      destruct H; cbn in Hq; rewrite upd_same in Hq; cbn in Hq; try discriminate; eauto.
      * injection Hq as <-. eapply update_ok; [apply M1, Np|..]; eassumption.
      * destruct (ltb _ _); discriminate.
    + intros k b q Hi. destruct H; cbn in Hi; repeat destruct Hi as [Hi|Hi]; try discriminate; eauto.
      * injection Hi as _ _ <-. exact zero_ok.
      * injection Hi as _ _ <-. eauto.
Qed.
End POWERS.

(* ---------- witnesses ---------- *)
Section WITNESS.
Variables (h : heater_id) (target now v : N) (p p' : pid N) (o : N).
Hypothesis Hp : (let '(kp, ki, kd) := gains h in pid_new target kp ki kd now) = Ok p.
Hypothesis Hu : pid_update p v now = (p', o).
Hypothesis Ht : reading target.
Hypothesis Hv : reading v.
Hypothesis Hc : clock now.

Ltac go_m := eapply steps_cons; [apply step_main|].
Ltac go_h := eapply steps_cons; [apply (step_heater _ _ _ _ 0)|].

(** A heater that has heated once and is about to measure again. *)
Lemma warm : exists s, reachable s /\ s_main s = MIdle /\ s_adc s = None /\ s_rec s h = Some 0 /\ h_pc (s_heaters s 0) = HMeasure /\
  s_log s = [Power 0 false (mul o (ofZ 100)); MeasOk (THeat 0); Constructed 0; MeasOk TMain; Created 0 h].
Proof.
  eexists. split.
  - exists p.
    go_m; [eapply m_new; [reflexivity|reflexivity|exact Ht|exact Hc|exact Hp]|].
    go_m; [eapply m_adc; reflexivity|].
    go_m; [eapply m_measured; reflexivity|].
    go_h; [apply h_acquire; reflexivity|].
    go_h; [apply h_check_run; reflexivity|].
    go_h; [apply h_adc; reflexivity|].
    go_h; [eapply h_measured; [reflexivity|exact Hv|exact Hc|exact Hu]|].
    go_h; [eapply h_control; reflexivity|].
    go_h; [apply h_release; reflexivity|].
    go_h; [apply h_wake; reflexivity|].
    go_h; [apply h_acquire; reflexivity|].
    go_h; [apply h_check_run; reflexivity|].
    apply steps_refl.
  - cbn. rewrite upd_rec_same. repeat split.
Qed.
(** The constructor fails while the thread is heating. *)
Lemma warm_lost : exists s, reachable s /\ s_main s = MIdle /\ s_rec s h = None /\
  s_log s = [NewRaised 0; MeasErr TMain Refused; Power 0 false (mul o (ofZ 100)); MeasOk (THeat 0); Created 0 h].
Proof.
  eexists. split.
  - exists p.
    go_m; [eapply m_new; [reflexivity|reflexivity|exact Ht|exact Hc|exact Hp]|].
    go_h; [apply h_acquire; reflexivity|].
    go_h; [apply h_check_run; reflexivity|].
    go_h; [apply h_adc; reflexivity|].
    go_h; [eapply h_measured; [reflexivity|exact Hv|exact Hc|exact Hu]|].
    go_h; [eapply h_control; reflexivity|].
    go_m; [eapply m_adc; reflexivity|].
    go_m; [eapply m_refused; reflexivity|].
    apply steps_refl.
  - cbn. repeat split.
Qed.
(** Switched on, off and on again. *)
Lemma on_off_on :
  (exists s, reachable s /\ s_main s = MIdle /\ s_rec s h = None /\
     s_log s = [StopReturned 0; Power 0 true zero; StopCalled 0; Constructed 0; MeasOk TMain; Created 0 h]) /\
  (exists s, reachable s /\
     s_log s = [Created 1 h; StopReturned 0; Power 0 true zero; StopCalled 0; Constructed 0; MeasOk TMain; Created 0 h]).
Proof.
  assert (exists s, reachable s /\ s_main s = MIdle /\ s_rec s h = None /\ s_next s = 1 /\
     s_log s = [StopReturned 0; Power 0 true zero; StopCalled 0; Constructed 0; MeasOk TMain; Created 0 h]) as (s & H & Hm & Hr & Hn & Hl).
  { eexists. split.
    - exists p. go_m; [eapply m_new; [reflexivity|reflexivity|exact Ht|exact Hc|exact Hp]|].
      go_m; [eapply m_adc; reflexivity|]. go_m; [eapply m_measured; reflexivity|].
      go_m; [apply (m_stop _ _ _ _ h 0); [reflexivity|cbn; apply upd_rec_same]|].
      go_m; [eapply m_stop_acquire; reflexivity|]. go_m; [eapply m_stop_set; reflexivity|].
      go_m; [eapply m_stop_release; reflexivity|]. go_m; [eapply m_stop_off; reflexivity|]. apply steps_refl.
    - cbn. rewrite upd_rec_same. repeat split. }
  split; [exists s; auto|]. eexists. split.
  - eapply reachable_steps; [exact H|]. apply steps_one, step_main. eapply m_new; [exact Hm|exact Hr|exact Ht|exact Hc|exact Hp].
  - cbn. now rewrite Hn, Hl.
Qed.
End WITNESS.

(** A thread that has died of an exception never sends anything again. *)
Lemma dead_silent s k f s' : reachable s -> In (MeasErr (THeat k) f) (s_log s) -> h_pc (s_heaters s k) = HDead -> steps s s' ->
  h_pc (s_heaters s' k) = HDead /\ exists l, s_log s' = l ++ s_log s /\ forall b p, ~ In (Power k b p) l.
Proof.
  intros H B Hp Hs. induction Hs as [|s1 s2 Hs IH Hst]; [split; [exact Hp|exists []; split; [reflexivity|intros b p []]]|].
  assert (H1: reachable s1) by exact (reachable_steps _ _ H Hs). destruct IH as (Hp1 & l & El & Hl).
  destruct (inv2_reachable s1 H1) as [I J].
  assert (ME: meas_err s1 k) by (exists f; rewrite El; apply in_or_app; now right).
  destruct (r_err s1 J k ME) as (LK & Hr & _).
  assert (Hrun: s_main s1 <> MStopOff k).
  { intros E. destruct (i_off s1 I k) as [K _]; [auto|]. congruence. }
  destruct Hst as [s2 Hst|j s2 Hst].
  - assert (exists d, s_log s2 = d ++ s_log s1 /\ (forall b p, ~ In (Power k b p) d)) as (d & Ed & Hd).
    { destruct Hst; try destruct c; unfold not_measured, measured; cbn;
      match goal with
      | |- exists l, ?a :: ?b :: ?r = l ++ ?r /\ _ => exists [a; b]
      | |- exists l, ?a :: ?r = l ++ ?r /\ _ => exists [a]
      | |- exists l, ?r = l ++ ?r /\ _ => exists []
      end; (split; [reflexivity|]); intros b q Hin; cbn in Hin; repeat destruct Hin as [Hin|Hin]; try discriminate; try contradiction.
      injection Hin as -> _ _. contradiction. }
    split.
    + destruct (mstep_heater s1 s2 k I Hst) as [(_ & E & _)|[E|[(_ & _ & E)|[(_ & E)|(_ & E)]]]]; [congruence|..]; rewrite E; exact Hp1.
    + exists (d ++ l). split; [now rewrite Ed, El, app_assoc|]. intros b p Hi. apply in_app_or in Hi. destruct Hi as [Hi|Hi]; [now apply Hd in Hi|now apply Hl in Hi].
  - assert (Hj: j <> k) by (intros ->; destruct Hst; congruence).
    assert (Ek: s_heaters s2 k = s_heaters s1 k) by (destruct Hst; cbn; rewrite upd_other; auto).
    rewrite Ek. split; [exact Hp1|].
    assert (exists d, s_log s2 = d ++ s_log s1 /\ forall b p, ~ In (Power k b p) d) as (d & Ed & Hd).
    { destruct Hst; eexists; (split; [reflexivity|]); intros b q Hin; cbn in Hin; repeat destruct Hin as [Hin|Hin]; try discriminate; try contradiction; injection Hin; intros; congruence. }
    exists (d ++ l). split; [now rewrite Ed, El, app_assoc|]. intros b p Hi. apply in_app_or in Hi. destruct Hi as [Hi|Hi]; [now apply Hd in Hi|now apply Hl in Hi].
Qed.

(** A heater whose constructor raised is never stopped. *)
Definition gone (s : sys) (k : nat) : Prop :=
  k < s_next s /\ ~ stop_done s k /\ (forall h, s_rec s h <> Some k) /\ ~ stopping (s_main s) k /\ s_main s <> MMeasure (Some k) /\ s_main s <> MAdc (Some k).
Lemma gone_step s s' k : gone s k -> step s s' -> gone s' k.
Proof.
  intros (G1 & G2 & G3 & G4 & G5 & G6) H. unfold gone, stop_done, stopping in *. destruct H as [s' H|j s' H].
  2: { destruct H; cbn; repeat split; auto; intros Hi; cbn in Hi; repeat destruct Hi as [Hi|Hi]; try discriminate; auto. }
  destruct H as [h target now p Hm Hr _ _ Hp|Hm|c Hm Ha|c Hm|c Hm|c Hm|c Hm|h k' Hm Hr|k' Hm Hl|k' Hm|k' Hm|k' Hm];
    rewrite Hm in G4, G5, G6.
  1: { cbn. split; [lia|]. split; [intros [E|E]; [discriminate|auto]|]. split; [exact G3|]. split; [intros [E|[E|[E|E]]]; discriminate|].
       split; [|discriminate]. intros E. injection E as E. lia. }
  1: { cbn. repeat (split; [first [assumption|intros [E|[E|[E|E]]]; discriminate|discriminate]|]). discriminate. }
  1: { cbn. split; [assumption|]. split; [assumption|]. split; [exact G3|]. split; [intros [E|[E|[E|E]]]; discriminate|]. split; [discriminate|].
       intros E. injection E as ->. now apply G5. }
  1: { destruct c as [c|]; cbn; (split; [assumption|]); (split; [intros Hi; repeat destruct Hi as [Hi|Hi]; try discriminate; auto|]);
       (split; [|split; [intros [E|[E|[E|E]]]; discriminate|split; discriminate]]); [|exact G3]. intros h E.
       destruct (heater_dec h (h_id (s_heaters s c))) as [->|Hne]; [rewrite upd_rec_same in E; congruence|].
       rewrite upd_rec_other in E by exact Hne. now apply (G3 h). }
  1-3: destruct c as [c|]; cbn; (split; [assumption|]); (split; [intros Hi; repeat destruct Hi as [Hi|Hi]; try discriminate; auto|]);
       (split; [exact G3|split; [intros [E|[E|[E|E]]]; discriminate|split; discriminate]]).
  1: { cbn. split; [assumption|]. split; [intros [E|E]; [discriminate|auto]|]. split; [exact G3|]. split; [|split; discriminate].
       intros [E|[E|[E|E]]]; try discriminate. injection E as ->. now apply (G3 h). }
  1-3: cbn; (split; [assumption|]); (split; [assumption|]); (split; [exact G3|]); (split; [|split; discriminate]);
       intros [E|[E|[E|E]]]; try discriminate; injection E as ->; apply G4; tauto.
  cbn. split; [assumption|]. split; [intros [E|[E|E]]; try discriminate; [injection E as ->; apply G4; tauto|auto]|].
  split; [|split; [intros [E|[E|[E|E]]]; discriminate|split; discriminate]]. intros h E.
  destruct (heater_dec h (h_id (s_heaters s k'))) as [->|Hne]; [rewrite upd_rec_same in E; discriminate|].
  rewrite upd_rec_other in E by exact Hne. now apply (G3 h).
Qed.
Lemma lost_gone s k : reachable s -> lost s k -> gone s k.
Proof.
  intros H. enough (inv s /\ (lost s k -> gone s k)) as [_ K] by exact K. revert s H. apply reach_ind.
  { intros p. split; [apply inv0|intros []]. }
  intros s s' [I K] H. split; [destruct H; [eapply inv_mstep|eapply inv_hstep]; eassumption|].
  intros L. assert (D: lost s k \/ ~ lost s k).
  { unfold lost. clear. induction (s_log s) as [|x l IH]; [right; intros []|]. destruct IH as [IH|IH]; [left; now right|].
    destruct x; try (right; intros [E|E]; [discriminate|contradiction]). destruct (Nat.eq_dec k0 k) as [->|Hn]; [left; now left|].
    right. intros [E|E]; [congruence|contradiction]. }
  destruct D as [D|D]; [eapply gone_step; eauto|]. clear K. unfold lost in *.
  destruct H as [s' H|j s' H].
  2: { exfalso. apply D. destruct H; cbn in L; repeat destruct L as [L|L]; try discriminate; exact L. }
  destruct H as [h target now p Hm Hr _ _ Hp|Hm|c Hm Ha|c Hm|c Hm|c Hm|c Hm|h k' Hm Hr|k' Hm Hl|k' Hm|k' Hm|k' Hm]; try destruct c as [c|];
    unfold measured, not_measured in *; cbn in L; repeat destruct L as [L|L]; try discriminate; try contradiction; injection L as ->.
  all: destruct (i_new s I k (or_intror Hm)) as (N1 & N2 & N3);
    (split; [exact N3|]); (split; [intros Hi; cbn in Hi; repeat destruct Hi as [Hi|Hi]; try discriminate; contradiction|]);
    (split; [|split; [intros [E|[E|[E|E]]]; discriminate|split; discriminate]]);
    intros h E; cbn in E; destruct (i_rec s I h k E) as (_ & R & _); congruence.
Qed.
Lemma lost_never_stopped s k : reachable s -> lost s k -> ~ In (StopReturned k) (s_log s).
Proof. intros H L. now destruct (lost_gone s k H L) as (_ & K & _). Qed.
End HP.
