(** Proofs about the controller (C39-C41). *)
From Coq Require Import ZArith Bool List Lia Reals Lra.
From Flocq Require Import Core BinarySingleNaN.
From Verif Require Import PyBase PyNum PyFloatFacts FloatBound Config Coordinates Pid.
From Coq Require Import List.
From Flocq Require Import Core.
Import ListNotations.

(* ---------- facts for any number structure ---------- *)
Section Gen.
Context {N : PyNum}.

(** The record of one update: value, time and output. *)
Definition uprec : Type := (N * N * N)%type.
Definition records (ups : list (N * N)) (outs : list N) : list uprec := combine ups outs.
Definition rec_time (r : uprec) : N := snd (fst r).
(** The measurement was within 1% of the target, with an output below 1. *)
Definition good (target : N) (r : uprec) : bool :=
  ltb (absn (sub target (fst (fst r)))) (mul target (ofdec false 1 2)) && ltb (snd r) (ofZ 1).

Lemma run_outs p ups : List.length (snd (pid_run (N:=N) p ups)) = List.length ups.
Proof.
  revert p. induction ups as [|[v t] r IH]; intros p; [reflexivity|]. cbn [pid_run].
  destruct (pid_update p v t) as [p1 o]. specialize (IH p1). destruct (pid_run p1 r). cbn in *. now rewrite IH.
Qed.
Lemma run_app p a b : pid_run (N:=N) p (a ++ b) =
  let '(p1, o1) := pid_run p a in let '(p2, o2) := pid_run p1 b in (p2, o1 ++ o2).
Proof.
  revert p. induction a as [|[v t] r IH]; intros p; cbn [app pid_run].
  - destruct (pid_run p b). reflexivity.
  - destruct (pid_update p v t) as [p1 o]. rewrite IH. destruct (pid_run p1 r). destruct (pid_run p0 b). reflexivity.
Qed.
Lemma update_target p v t : p_target (fst (pid_update (N:=N) p v t)) = p_target p.
Proof. unfold pid_update. destruct (pid_fix _ _ _ _). reflexivity. Qed.
Lemma run_target p ups : p_target (fst (pid_run (N:=N) p ups)) = p_target p.
Proof.
  revert p. induction ups as [|[v t] r IH]; intros p; [reflexivity|]. cbn [pid_run].
  pose proof (update_target p v t). destruct (pid_update p v t) as [p1 o]. specialize (IH p1). destruct (pid_run p1 r). cbn in *. congruence.
Qed.

Lemma exists_last_or {A} (l : list A) : l = [] \/ exists l' x, l = l' ++ [x].
Proof. destruct l as [|a l]; [now left|right]. destruct (@exists_last _ (a :: l)) as (l' & x & E); [discriminate|]. eauto. Qed.

(** A run of good updates, maximal to the left, lasting long enough. *)
Definition held (target : N) (l : list uprec) : Prop :=
  exists pre first mid last post,
    l = pre ++ (first :: mid ++ [last]) ++ post /\
    forallb (good target) (first :: mid ++ [last]) = true /\
    (pre = [] \/ exists pre' b, pre = pre' ++ [b] /\ good target b = false) /\
    ltb (ofdec false 25 1) (sub (rec_time last) (rec_time first)) = true.
(** The current run of good updates, when the target is not fixed yet. *)
Definition current (target : N) (l : list uprec) (timer : option N) : Prop :=
  match timer with
  | None => l = [] \/ exists l' b, l = l' ++ [b] /\ good target b = false
  | Some t => exists pre first mid, l = pre ++ first :: mid /\ forallb (good target) (first :: mid) = true /\
      (pre = [] \/ exists pre' b, pre = pre' ++ [b] /\ good target b = false) /\ rec_time first = t
  end.

Lemma held_more target l x : held target l -> held target (l ++ [x]).
Proof.
  intros (pre & f & mid & la & post & -> & H). exists pre, f, mid, la, (post ++ [x]).
  split; [now rewrite !app_assoc|exact H].
Qed.

Lemma forallb_snoc {A} (f : A -> bool) l x : forallb f (l ++ [x]) = forallb f l && f x.
Proof. rewrite forallb_app. cbn. now rewrite andb_true_r. Qed.
Lemma snoc_inj {A} (a b : list A) x y : a ++ [x] = b ++ [y] -> a = b /\ x = y.
Proof. apply app_inj_tail. Qed.

(** The good runs of a list extended by one element. *)
Lemma held_snoc target l x :
  held target (l ++ [x]) ->
  held target l \/
  (good target x = true /\ exists pre first mid, l = pre ++ first :: mid /\ forallb (good target) (first :: mid) = true /\
     (pre = [] \/ exists pre' b, pre = pre' ++ [b] /\ good target b = false) /\
     ltb (ofdec false 25 1) (sub (rec_time x) (rec_time first)) = true).
Proof.
  intros (pre & f & mid & la & post & E & G & P & T). destruct (exists_last_or post) as [->|(post' & y & ->)].
  - right. rewrite app_nil_r in E. change (f :: mid ++ [la]) with ((f :: mid) ++ [la]) in E, G. rewrite app_assoc in E. apply snoc_inj in E.
    destruct E as [-> ->]. rewrite forallb_snoc in G. apply andb_prop in G. destruct G as [G1 G2].
    split; [exact G2|]. exists pre, f, mid. auto.
  - left. rewrite !app_assoc in E. apply snoc_inj in E. destruct E as [-> _].
    exists pre, f, mid, la, post'. rewrite <- !app_assoc. auto.
Qed.

Lemma left_unique target (pre1 pre2 r1 r2 : list uprec) :
  pre1 ++ r1 = pre2 ++ r2 -> forallb (good target) r1 = true -> forallb (good target) r2 = true ->
  (pre1 = [] \/ exists pre' b, pre1 = pre' ++ [b] /\ good target b = false) ->
  (pre2 = [] \/ exists pre' b, pre2 = pre' ++ [b] /\ good target b = false) -> pre1 = pre2 /\ r1 = r2.
Proof.
  assert (K: forall (pre1 pre2 r1 r2 d : list uprec), pre2 = pre1 ++ d -> r1 = d ++ r2 -> forallb (good target) r1 = true ->
     (pre2 = [] \/ exists pre' b, pre2 = pre' ++ [b] /\ good target b = false) -> d = []).
  { intros p1 p2 q1 q2 d E1 E2 G1 [H|(p' & b & H & Hb)].
    - rewrite H in E1. symmetry in E1. now apply app_eq_nil in E1.
    - destruct (exists_last_or d) as [->|(d' & x & ->)]; [reflexivity|]. subst p2. rewrite app_assoc in H. apply snoc_inj in H.
      destruct H as [_ ->]. subst q1. rewrite !forallb_app in G1. cbn in G1. rewrite Hb in G1. rewrite andb_false_r in G1. discriminate. }
  intros E G1 G2 H1 H2. apply app_eq_app in E. destruct E as (d & [[E1 E2]|[E1 E2]]).
  - assert (d = []) by (eapply (K pre2 pre1 r2 r1 d); eauto). subst. rewrite app_nil_r. auto.
  - assert (d = []) by (eapply (K pre1 pre2 r1 r2 d); eauto). subst. rewrite app_nil_r. auto.
Qed.

Lemma records_snoc a x b y : List.length a = List.length b -> records (a ++ [x]) (b ++ [y]) = records a b ++ [(x, y)].
Proof.
  revert b. induction a as [|a0 a IH]; intros [|b0 b] H; cbn in *; try discriminate; [reflexivity|].
  unfold records in *. cbn. rewrite IH by congruence. reflexivity.
Qed.

Lemma held_nil target : ~ held target [].
Proof. intros (pre & f & mid & la & post & E & _). destruct pre; discriminate. Qed.

Lemma fix_invariant (p : pid N) ups : p_fixed p = false -> p_timer p = None ->
  let '(p', outs) := pid_run p ups in
  let l := records ups outs in
  if p_fixed p' then held (p_target p) l else ~ held (p_target p) l /\ current (p_target p) l (p_timer p').
Proof.
  intros F0 T0. induction ups as [|[v t] ups IH] using rev_ind.
  - cbn. rewrite F0, T0. split; [apply held_nil|now left].
  - rewrite run_app. pose proof (run_outs p ups) as Hlen. pose proof (run_target p ups) as Htg. destruct (pid_run p ups) as [p1 o1].
    cbn [fst snd] in Hlen, Htg. cbn [pid_run]. unfold pid_update.
    set (e := sub (p_target p1) v). set (i := pid_integral _ _ _). set (res := pid_output _ _ _ _).
    destruct (pid_fix p1 e res t) as [fx tm] eqn:Ef. cbn [p_fixed p_timer]. rewrite records_snoc by (symmetry; exact Hlen).
    set (x := (v, t, res)). set (l := records ups o1) in *. cbv zeta in IH.
    assert (Hg: good (p_target p) x = pid_near p1 e res) by (unfold good, pid_near, x, e; cbn; now rewrite Htg).
    unfold pid_fix in Ef. destruct (p_fixed p1) eqn:F1.
    + injection Ef as <- <-. now apply held_more.
    + destruct IH as [NH C]. destruct (pid_near p1 e res) eqn:Hn.
      * destruct (p_timer p1) as [t0|] eqn:T1.
        -- destruct C as (pre & f & mid & E & G & P & Rt).
           destruct (ltb fix_time (sub t t0)) eqn:Lt; injection Ef as <- <-.
           ++ exists pre, f, mid, x, []. rewrite app_nil_r, E. split; [now rewrite <- app_assoc|]. split.
              { change (f :: mid ++ [x]) with ((f :: mid) ++ [x]). rewrite forallb_snoc, G, Hg. reflexivity. }
              split; [exact P|]. rewrite Rt. exact Lt.
           ++ split.
              { intros H. apply held_snoc in H. destruct H as [H|(_ & pre2 & f2 & mid2 & E2 & G2 & P2 & L2)]; [auto|].
                rewrite E in E2. apply (left_unique (p_target p)) in E2; auto. destruct E2 as [_ E2]. injection E2 as <- <-.
                rewrite Rt in L2. unfold fix_time in Lt. change (rec_time x) with t in L2. congruence. }
              exists pre, f, (mid ++ [x]). split; [rewrite E; now rewrite <- app_assoc|]. split; [|auto].
              change (f :: mid ++ [x]) with ((f :: mid) ++ [x]). rewrite forallb_snoc, G, Hg. reflexivity.
        -- injection Ef as <- <-. split.
           ++ intros H. apply held_snoc in H. destruct H as [H|(_ & pre2 & f2 & mid2 & E2 & G2 & P2 & L2)]; [auto|].
              destruct C as [C|(l' & b & C & Hb)]; [rewrite C in E2; destruct pre2; discriminate|].
              rewrite C in E2. destruct (exists_last_or (f2 :: mid2)) as [?|(r' & y & Er)]; [discriminate|].
              rewrite Er in E2, G2. rewrite app_assoc in E2. apply snoc_inj in E2. destruct E2 as [_ <-].
              rewrite forallb_snoc, Hb, andb_false_r in G2. discriminate.
           ++ exists l, x, []. split; [reflexivity|]. split; [cbn; now rewrite Hg|]. split; [exact C|reflexivity].
      * injection Ef as <- <-. split.
        -- intros H. apply held_snoc in H. destruct H as [H|(Hx & _)]; [auto|]. congruence.
        -- right. exists l, x. auto.
Qed.

Lemma fixed_iff_held (target kp ki kd now : N) p ups p' outs :
  pid_new target kp ki kd now = Ok p -> pid_run p ups = (p', outs) ->
  (p_fixed p' = true <-> held target (records ups outs)).
Proof.
  intros Hn Hr. assert (F: p_fixed p = false /\ p_timer p = None /\ p_target p = target).
  { unfold pid_new in Hn. destruct (div _ _); [|discriminate]. injection Hn as <-. auto. }
  destruct F as (F & T & E). pose proof (fix_invariant p ups F T) as H. rewrite Hr in H. cbv zeta in H. rewrite E in H.
  destruct (p_fixed p'); split; auto; [discriminate|]. intros K. now destruct H.
Qed.

(** It stays true. *)
Lemma fixed_stays (p : pid N) v t : p_fixed p = true -> p_fixed (fst (pid_update p v t)) = true.
Proof. intros H. unfold pid_update, pid_fix. rewrite H. reflexivity. Qed.
Lemma fixed_stays_run (p : pid N) ups : p_fixed p = true -> p_fixed (fst (pid_run p ups)) = true.
Proof.
  revert p. induction ups as [|[v t] r IH]; intros p H; [exact H|]. cbn [pid_run].
  pose proof (fixed_stays p v t H). destruct (pid_update p v t) as [p1 o]. specialize (IH p1 H0). destruct (pid_run p1 r). exact IH.
Qed.
End Gen.

(* ---------- exact arithmetic ---------- *)
Local Open Scope R_scope.
Section Exact.
Lemma output_R (p : pid RN) e i d : 0 <= pid_output (N:=RN) p e i d <= 1.
Proof.
  unfold pid_output. change (@zero RN) with 0. cbn. unfold Rltb. repeat destruct (Rlt_dec _ _); lra.
Qed.
Lemma integral_R (p : pid RN) e d : Rabs (pid_integral (N:=RN) p e d) <= Rabs (p_windup p).
Proof.
  unfold pid_integral. cbn. unfold Rltb. destruct (Rlt_dec (p_windup p) _) as [L|L].
  - destruct (Rlt_dec _ 0); rewrite ?Rabs_Ropp, Rabs_Rabsolu; lra.
  - eapply Rle_trans; [apply Rnot_lt_le, L|apply RRle_abs].
Qed.
Lemma run_R (p : pid RN) ups : Rabs (p_integral p) <= Rabs (p_windup p) ->
  Forall (fun o : R => 0 <= o <= 1) (snd (pid_run p ups)) /\ Rabs (p_integral (fst (pid_run p ups))) <= Rabs (p_windup p).
Proof.
  revert p. induction ups as [|[v t] r IH]; intros p H0; [split; [constructor|exact H0]|]. cbn [pid_run]. unfold pid_update.
  destruct (pid_fix _ _ _ _) as [fx tm]. match goal with |- context [pid_run ?q r] => specialize (IH q) end.
  cbn [p_windup p_integral] in IH. specialize (IH (integral_R _ _ _)). destruct (pid_run _ r) as [p2 os]. cbn in *.
  destruct IH as [I1 I2]. split; [|exact I2]. constructor; [apply output_R|exact I1].
Qed.
Lemma exact_bounds target kp ki kd now p ups p' outs :
  pid_new (N:=RN) target kp ki kd now = Ok p -> pid_run p ups = (p', outs) ->
  Forall (fun o : R => 0 <= o <= 1) outs /\ Rabs (p_integral p') <= / Rabs ki /\ Rabs (ki * p_integral p') <= 1.
Proof.
  intros Hn Hr. unfold pid_new in Hn. cbn in Hn. destruct (Req_EM_T ki 0) as [|Hk]; [discriminate|]. injection Hn as <-.
  match type of Hr with pid_run ?p _ = _ => destruct (run_R p ups) as [I1 I2] end.
  - cbn. rewrite Rabs_R0. apply Rabs_pos.
  - rewrite Hr in I1, I2. cbn in I1, I2. split; [exact I1|].
    assert (B: Rabs (p_integral p') <= / Rabs ki).
    { eapply Rle_trans; [exact I2|]. right. unfold Rdiv. rewrite Rmult_1_l. now apply Rabs_inv. }
    split; [exact B|]. rewrite Rabs_mult. assert (0 < Rabs ki) by now apply Rabs_pos_lt.
    replace 1 with (Rabs ki * / Rabs ki) by (field; lra). apply Rmult_le_compat_l; [lra|exact B].
Qed.
End Exact.

(* ---------- binary64 ---------- *)
(** What the proofs need: every number involved is at most 2^64 in magnitude, and
    the integral coefficient is at least 2^-64. *)
Record tame_gains (kp ki kd : f64) : Prop := {
  tame_P : fb kp 64; tame_I : fb ki 64; tame_D : fb kd 64;
  tame_I_low : bpow radix2 (-64) <= val ki
}.

Section Float.
Variable acos : f64 -> f64.
Notation N := (F64 acos).
Variables (target kp ki kd : f64).
Hypothesis Hg : tame_gains kp ki kd.
Hypothesis Ht : fb target 64.

Record ok_pid (p : pid N) : Prop := {
  ok_target : p_target p = target;
  ok_P : p_P p = kp; ok_I : p_I p = ki; ok_D : p_D p = kd;
  ok_windup : fb (p_windup p) 64 /\ val (p_windup p) = rd (1 / val ki) /\ 0 <= val (p_windup p);
  ok_time : fb (p_time p) 64;
  ok_last : fb (p_last p) 65;
  ok_int : fin (p_integral p) /\ Rabs (val (p_integral p)) <= val (p_windup p)
}.
Definition in_unit (x : f64) : Prop := fin x /\ 0 <= val x <= 1.

Lemma integral_F (p : pid N) e d : ok_pid p -> fb e 65 -> fb d 65 ->
  fin (pid_integral (N:=N) p e d) /\ Rabs (val (pid_integral (N:=N) p e d)) <= val (p_windup p).
Proof.
  intros Hp He Hd. destruct (fb_mul e d 65 65 He Hd ltac:(lia)) as [Hm _].
  destruct (ok_windup p Hp) as (Hw & _ & Hw0). destruct (ok_int p Hp) as (Hi1 & Hi2).
  assert (Hi: fb (p_integral p) 130).
  { split; [exact Hi1|]. destruct Hw as [_ Hw]. eapply Rle_trans; [exact Hi2|]. rewrite Rabs_pos_eq in Hw by exact Hw0.
    eapply Rle_trans; [exact Hw|]. apply bpow_le. lia. }
  destruct (fb_add _ _ 130 Hi Hm ltac:(lia)) as [Hs _]. unfold pid_integral. cbn.
  set (i := f_add (p_integral p) (f_mul e d)) in *. destruct (f_lt (p_windup p) (Babs i)) eqn:L.
  - unfold f_copysign. destruct (Bsign i).
    + split; [apply fin_opp, fin_abs, Hw|]. rewrite val_opp, Rabs_Ropp, val_abs, Rabs_Rabsolu, Rabs_pos_eq; lra.
    + split; [apply fin_abs, Hw|]. rewrite val_abs, Rabs_Rabsolu, Rabs_pos_eq; lra.
  - split; [apply Hs|]. apply f_lt_false in L; [|apply Hw|apply fin_abs, Hs]. rewrite val_abs in L. exact L.
Qed.
Lemma output_F (p : pid N) e i d : ok_pid p -> fb e 65 -> fb d 66 -> fin i -> Rabs (val i) <= val (p_windup p) ->
  in_unit (pid_output (N:=N) p e i d).
Proof.
  intros Hp He Hd Hi1 Hi2. destruct (ok_windup p Hp) as (Hw & _ & Hw0).
  assert (Hi: fb i 64).
  { split; [exact Hi1|]. destruct Hw as [_ Hw]. rewrite Rabs_pos_eq in Hw by exact Hw0. eapply Rle_trans; eassumption. }
  unfold pid_output. rewrite (ok_P p Hp), (ok_I p Hp), (ok_D p Hp). cbn -[f_ofZ].
  destruct (fb_mul kp e 64 65 (tame_P _ _ _ Hg) He ltac:(lia)) as [M1 _].
  destruct (fb_mul ki i 64 64 (tame_I _ _ _ Hg) Hi ltac:(lia)) as [M2 _].
  destruct (fb_mul kd d 64 66 (tame_D _ _ _ Hg) Hd ltac:(lia)) as [M3 _].
  destruct (fb_add _ _ 130 (fb_weak _ _ 130 M1 ltac:(lia)) (fb_weak _ _ 130 M2 ltac:(lia)) ltac:(lia)) as [S1 _].
  destruct (fb_add _ _ 131 S1 (fb_weak _ _ 131 M3 ltac:(lia)) ltac:(lia)) as [S2 _].
  set (res := f_add (f_add _ _) _) in *. clearbody res. clear S1 M1 M2 M3.
  destruct (fb_ofZ 1 0 ltac:(cbn; lia) ltac:(lia)) as [[F1 _] V1]. destruct (fb_ofZ 0 0 ltac:(cbn; lia) ltac:(lia)) as [[F0 _] V0].
  change (@zero N) with (f_ofZ 0).
  assert (K: fin (if f_lt (f_ofZ 1) res then f_ofZ 1 else res) /\ val (if f_lt (f_ofZ 1) res then f_ofZ 1 else res) <= 1).
  { destruct (f_lt (f_ofZ 1) res) eqn:L; [split; [exact F1|lra]|]. split; [apply S2|]. apply f_lt_false in L; [|exact F1|apply S2]. lra. }
  destruct K as [K1 K2]. set (r1 := if f_lt (f_ofZ 1) res then _ else _) in *. clearbody r1.
  destruct (f_lt r1 (f_ofZ 0)) eqn:L; [split; [exact F0|lra]|]. split; [exact K1|]. apply f_lt_false in L; [|exact K1|exact F0]. lra.
Qed.
Lemma update_F (p : pid N) v t : ok_pid p -> fb v 64 -> fb t 64 ->
  ok_pid (fst (pid_update (N:=N) p v t)) /\ in_unit (snd (pid_update (N:=N) p v t)).
Proof.
  intros Hp Hv Hti. unfold pid_update. cbn [add sub N]. rewrite (ok_target p Hp).
  destruct (fb_sub target v 64 Ht Hv ltac:(lia)) as [He _]. destruct (fb_sub t _ 64 Hti (ok_time p Hp) ltac:(lia)) as [Hd _].
  destruct (fb_sub _ _ 65 He (ok_last p Hp) ltac:(lia)) as [Hde _].
  cbn -[pid_integral pid_output pid_fix].
  set (e := f_sub target v) in *. set (d := f_sub t (p_time p)) in *. set (de := f_sub e (p_last p)) in *.
  destruct (integral_F p e d Hp He Hd) as [I1 I2]. set (i := pid_integral p e d) in *.
  pose proof (output_F p e i de Hp He Hde I1 I2) as O. set (o := pid_output p e i de) in *.
  destruct (pid_fix p e o t). cbn [fst snd]. split; [|exact O].
  split; cbn [p_target p_P p_I p_D p_windup p_time p_last p_integral]; auto; apply Hp.
Qed.
Definition tame_ups (ups : list (f64 * f64)) : Prop := Forall (fun u => fb (fst u) 64 /\ fb (snd u) 64) ups.
Lemma run_F (p : pid N) ups : ok_pid p -> tame_ups ups ->
  ok_pid (fst (pid_run (N:=N) p ups)) /\ Forall in_unit (snd (pid_run (N:=N) p ups)).
Proof.
  intros Hp H. revert p Hp. induction H as [|[v t] r [Hv Hti] _ IH]; intros p Hp; [split; [exact Hp|constructor]|].
  cbn [pid_run]. destruct (update_F p v t Hp Hv Hti) as [P1 O1]. destruct (pid_update p v t) as [p1 o]. cbn [fst snd] in *.
  destruct (IH p1 P1) as [P2 O2]. destruct (pid_run p1 r) as [p2 os]. cbn [fst snd] in *. split; [exact P2|constructor; assumption].
Qed.
Lemma rd_inv_bounds : 0 < 1 / val ki <= bpow radix2 64 /\ bpow radix2 (-64) <= 1 / val ki.
Proof.
  pose proof (tame_I_low _ _ _ Hg) as L. pose proof (bpow_gt_0 radix2 (-64)) as P. destruct (tame_I _ _ _ Hg) as [_ U].
  rewrite Rabs_pos_eq in U by lra. unfold Rdiv. rewrite Rmult_1_l. split; [split|].
  - apply Rinv_0_lt_compat. lra.
  - change (bpow radix2 64) with (bpow radix2 (- (-64))). rewrite bpow_opp. apply Rinv_le; lra.
  - change (-64)%Z with (- (64))%Z. rewrite bpow_opp. apply Rinv_le; lra.
Qed.
Lemma new_F now : fb now 64 -> exists p, pid_new (N:=N) target kp ki kd now = Ok p /\ ok_pid p.
Proof.
  intros Hn. unfold pid_new. cbn [div N]. destruct (fb_ofZ 1 0 ltac:(cbn; lia) ltac:(lia)) as [[F1 _] V1].
  destruct rd_inv_bounds as [[P U] L]. destruct (tame_I _ _ _ Hg) as [FI _]. pose proof (tame_I_low _ _ _ Hg) as LI. pose proof (bpow_gt_0 radix2 (-64)).
  destruct (f_div_val (f_ofZ 1) ki F1 FI) as (q & E & Fq & Vq); [lra| |].
  { rewrite V1, Rabs_pos_eq by lra. eapply Rle_trans; [exact U|]. apply bpow_le. lia. }
  cbn -[f_ofZ f_div]. rewrite E. cbn [rbind]. eexists. split; [reflexivity|]. rewrite V1 in Vq.
  assert (W: 0 <= val q) by (rewrite Vq, <- rd_0; apply rd_le; lra).
  split; cbn [p_target p_P p_I p_D p_windup p_time p_last p_integral]; try reflexivity; try exact Hn.
  - split; [|split; [exact Vq|exact W]]. eapply fb_rd; [exact Fq|exact Vq|lia|]. rewrite Rabs_pos_eq; lra.
  - destruct (fb_ofZ 0 0 ltac:(cbn; lia) ltac:(lia)) as [F0 _]. apply (fb_weak _ _ 65 F0). lia.
  - destruct (fb_ofZ 0 0 ltac:(cbn; lia) ltac:(lia)) as [[F0 _] V0]. split; [exact F0|]. change (@zero N) with (f_ofZ 0). rewrite V0, Rabs_R0. exact W.
Qed.
Lemma rd_one_ulp : rd (1 + bpow radix2 (-53)) = 1.
Proof.
  destruct (fb_ofZ 1 0 ltac:(cbn; lia) ltac:(lia)) as [[F1 _] V1].
  destruct (f_ratio_val false 1 (2 ^ 53)) as (F2 & V2 & _); [lia| |].
  { change (IZR (Z.pos (2 ^ 53))) with 9007199254740992. rewrite Rabs_pos_eq by (apply Rlt_le, Rdiv_lt_0_compat; lra). apply Rle_trans with 1; [|change 1 with (bpow radix2 0); apply bpow_le; lia].
    lra. }
  assert (E: rd (1 * (1 / IZR (Z.pos (2 ^ 53)))) = bpow radix2 (-53)).
  { replace (1 * (1 / IZR (Z.pos (2 ^ 53)))) with (bpow radix2 (-53)); [apply rd_bpow; lia|]. change (IZR (Z.pos (2 ^ 53))) with 9007199254740992. cbn. lra. }
  rewrite E in V2.
  destruct (f_add_val (f_ofZ 1) (f_ratio false 1 (2 ^ 53)) F1 F2) as [_ V].
  { rewrite V1, V2, Rabs_pos_eq by (pose proof (bpow_gt_0 radix2 (-53)); lra). unfold big.
    apply Rle_trans with (bpow radix2 1); [|apply bpow_le; lia]. change (bpow radix2 1) with 2.
    assert (bpow radix2 (-53) <= bpow radix2 0) by (apply bpow_le; lia). change (bpow radix2 0) with 1 in *. lra. }
  rewrite V1, V2 in V. rewrite <- V. rewrite <- V1. f_equal. apply B2SF_inj. vm_compute. reflexivity.
Qed.
Lemma contribution_F (p : pid N) : ok_pid p -> fin (f_mul ki (p_integral p)) /\ Rabs (val (f_mul ki (p_integral p))) <= 1.
Proof.
  intros Hp. destruct (ok_windup p Hp) as (Hw & Vw & Hw0). destruct (ok_int p Hp) as (Hi1 & Hi2).
  assert (Hi: fb (p_integral p) 64).
  { split; [exact Hi1|]. destruct Hw as [_ Hw]. rewrite Rabs_pos_eq in Hw by exact Hw0. eapply Rle_trans; eassumption. }
  destruct (fb_mul ki (p_integral p) 64 64 (tame_I _ _ _ Hg) Hi ltac:(lia)) as [[F _] V]. split; [exact F|].
  rewrite V, <- rd_abs. rewrite <- rd_one_ulp. apply rd_le. rewrite Rabs_mult.
  pose proof (tame_I_low _ _ _ Hg) as L. pose proof (bpow_gt_0 radix2 (-64)) as P0. rewrite (Rabs_pos_eq (val ki)) by lra.
  destruct rd_inv_bounds as [[P U] Lo].
  assert (Er: Rabs (rd (1 / val ki) - 1 / val ki) <= bpow radix2 (-53) * Rabs (1 / val ki)).
  { apply rd_error_rel. rewrite Rabs_pos_eq by lra. eapply Rle_trans; [|exact Lo]. apply bpow_le. lia. }
  rewrite (Rabs_pos_eq (1 / val ki)) in Er by lra. rewrite <- Vw in Er.
  assert (W: val (p_windup p) <= (1 + bpow radix2 (-53)) * (1 / val ki)).
  { pose proof (Rle_abs (val (p_windup p) - 1 / val ki)). lra. }
  apply Rle_trans with (val ki * ((1 + bpow radix2 (-53)) * (1 / val ki))).
  - apply Rmult_le_compat_l; lra.
  - right. field. lra.
Qed.
Lemma power_F x : in_unit x -> fin (f_mul x (f_ofZ 100)) /\ 0 <= val (f_mul x (f_ofZ 100)) <= 100.
Proof.
  intros (Fx & X0 & X1). destruct (fb_ofZ 100 7 ltac:(cbn; lia) ltac:(lia)) as [B V].
  assert (fb x 0) by (split; [exact Fx|rewrite Rabs_pos_eq; auto]).
  destruct (fb_mul x _ 0 7 H B ltac:(lia)) as [[F _] E]. split; [exact F|]. rewrite E, V. split.
  - rewrite <- rd_0. apply rd_le. lra.
  - apply Rle_trans with (rd 100); [apply rd_le; lra|rewrite (rd_IZR 100) by lia; lra].
Qed.
End Float.
