(** Property C90: utils/pid_finder.py. Every theorem is followed by its assumptions and by an
    Example in which its hypotheses hold. *)
From Coq Require Import ZArith Bool Reals Lra Lia List.
From Verif Require Import PyBase PyNum PyFloatFacts Config Dma DmaGpio Gpio GpioProofs Hal Watchdog WatchdogProofs WatchdogThread WatchdogThreadSpec WatchdogThreadProofs PidFinder PidFinderSpec PropsWatchdog.
From Verif Require Import PyBase PyNum Config PidFinder PidFinderSpec.
From Coq Require Import List.
Import ListNotations.

Section Any.
Context {N : PyNum}.
Notation tenth := (ofdec (p:=N) false 1 1).
(** The newest switching agrees with the variables. *)
Definition agrees (l : list (N * N)) (s : finder N) : Prop := newest l (f_last_time s) (if f_on s then ofZ 100 else ofZ 0).
Lemma newest_more (l l' : list (N * N)) t p : newest l' t p -> newest (l ++ l') t p.
Proof. intros (l0 & ->). exists (l ++ l0). now rewrite app_assoc. Qed.
Lemma extremes_keeps t (s : finder N) : f_on (extremes t s) = f_on s /\ f_last_time (extremes t s) = f_last_time s.
Proof. unfold extremes. now destruct (2 <? f_cycle s)%Z. Qed.
Lemma agrees_extremes l t (s : finder N) : agrees l s -> agrees l (extremes t s).
Proof. unfold agrees. destruct (extremes_keeps t s) as [-> ->]. auto. Qed.
Lemma iteration_agrees target now t (s s1 : finder N) c stop l : iteration target now t s = (s1, c, stop) -> agrees l s -> agrees (l ++ c) s1.
Proof.
  unfold iteration. intros H A. destruct (leb target t && f_on s && _).
  - assert (A1: agrees (l ++ [(now, ofZ 0)]) (turned_off now s)) by (exists l; reflexivity).
    destruct (ltb t target && _ && _); [destruct (7 <? _)%Z|]; injection H as <- <- <-; [exact A1| |apply agrees_extremes, A1].
    apply agrees_extremes. exists (l ++ [(now, ofZ 0)]). rewrite <- app_assoc. reflexivity.
  - destruct (ltb t target && _ && _); [destruct (7 <? _)%Z|]; injection H as <- <- <-; rewrite ?app_nil_r; [exact A| |apply agrees_extremes, A].
    apply agrees_extremes. exists l. reflexivity.
Qed.
Lemma iteration_stops target now t (s s1 : finder N) c : iteration target now t s = (s1, c, true) -> f_on s1 = false /\ (7 < f_cycle s1)%Z.
Proof.
  unfold iteration. destruct (leb target t && f_on s && _).
  - destruct (ltb t target && _ && _) eqn:E; [destruct (7 <? _)%Z eqn:F|]; intros H; try discriminate H. injection H as <- <-. split; [reflexivity|now apply Z.ltb_lt].
  - destruct (ltb t target && _ && _) eqn:E; [destruct (7 <? _)%Z eqn:F|]; intros H; try discriminate H. injection H as <- <-.
    apply andb_prop in E. destruct E as [E _]. apply andb_prop in E. destruct E as [_ E]. split; [now apply negb_true_iff|now apply Z.ltb_lt].
Qed.
Lemma iteration_thermostat target now t (s s1 : finder N) c : iteration target now t s = (s1, c, false) ->
  (leb target t = true -> ltb t target = false -> f_on s1 = false \/ ltb tenth (sub now (f_last_time s1)) = false) /\
  (ltb t target = true -> f_on s1 = true \/ ltb tenth (sub now (f_last_time s1)) = false).
Proof.
  unfold iteration. intros H. destruct (ltb tenth (sub now (f_last_time s))) eqn:F.
  - rewrite !andb_true_r in H. destruct (leb target t) eqn:L, (f_on s) eqn:O, (ltb t target) eqn:B; cbn [andb negb turned_off f_on] in H;
      rewrite ?O in H; cbn [andb negb turned_off f_on f_cycle] in H;
      try (destruct (7 <? _)%Z; [discriminate H|]); injection H as <- <-;
      match goal with |- context [extremes ?a ?b] => destruct (extremes_keeps a b) as [-> ->] end; cbn [turned_off turned_on f_on]; rewrite ?O;
      split; auto; discriminate.
  - rewrite !andb_false_r in H. injection H as <- <-. destruct (extremes_keeps t s) as [-> ->]. auto.
Qed.
Lemma loop_app target i1 i2 : forall (s : finder N) c, finder_loop target (i1 ++ i2) s = (c, None) ->
  exists c1 c2 s1, finder_loop target i1 s = (c1, None) /\ finder_loop target i2 s1 = (c2, None) /\ c = c1 ++ c2 /\
    forall l, agrees l s -> agrees (l ++ c1) s1.
Proof.
  induction i1 as [|[now [t|e]] i1 IH]; intros s c H; cbn [finder_loop app] in *.
  - exists [], c, s. repeat split; auto. intros l. now rewrite app_nil_r.
  - destruct (iteration target now t s) as [[s1 c0] stop] eqn:E. destruct stop; [discriminate|].
    destruct (finder_loop target (i1 ++ i2) s1) as [c' o] eqn:F. injection H as <- ->.
    destruct (IH s1 c' F) as (c1 & c2 & s2 & F1 & F2 & -> & A). exists (c0 ++ c1), c2, s2. rewrite F1. repeat split; auto; [now rewrite app_assoc|].
    intros l G. rewrite app_assoc. apply A. exact (iteration_agrees _ _ _ _ _ _ _ _ E G).
  - discriminate.
Qed.
Lemma loop_off target ins : forall (s s1 : finder N) c l, finder_loop target ins s = (c, Some (Ok s1)) -> agrees l s ->
  agrees (l ++ c) s1 /\ f_on s1 = false.
Proof.
  induction ins as [|[now [t|e]] ins IH]; intros s s1 c l H A; cbn [finder_loop] in H; try discriminate.
  destruct (iteration target now t s) as [[s2 c0] stop] eqn:E. pose proof (iteration_agrees _ _ _ _ _ _ _ _ E A) as A2. destruct stop.
  - injection H as <- <-. split; [exact A2|]. exact (proj1 (iteration_stops _ _ _ _ _ _ E)).
  - destruct (finder_loop target ins s2) as [c' o] eqn:F. injection H as <- ->. rewrite app_assoc. exact (IH _ _ _ _ F A2).
Qed.

(** C90. While the finder runs, after every round: a heater whose reading is at or above the
    target is off, and one whose reading is below it is on, unless it was switched at most a
    tenth of a second before. *)
Theorem C90_thermostat target start ins now t (l : list (N * N)) :
  run_finder target start (ins ++ [(now, Ok t)]) = (l, None) ->
  exists at_ p, newest l at_ p /\
    (leb target t = true -> ltb t target = false -> p = ofZ 0 \/ ltb (ofdec false 1 1) (sub now at_) = false) /\
    (ltb t target = true -> p = ofZ 100 \/ ltb (ofdec false 1 1) (sub now at_) = false).
Proof.
  unfold run_finder. destruct (snd start) as [r|e]; [|discriminate].
  destruct (finder_loop target (ins ++ [(now, Ok t)]) (start_finder (fst start))) as [c o] eqn:E. intros H. injection H as <- H.
  destruct o as [[s|e]|]; try discriminate. destruct (loop_app _ _ _ _ _ E) as (c1 & c2 & s1 & _ & F & -> & A).
  cbn [finder_loop] in F. destruct (iteration target now t s1) as [[s2 c3] stop] eqn:G. destruct stop; [discriminate|]. injection F as <-. rewrite app_nil_r.
  assert (A1: agrees [(fst start, ofZ 100)] (start_finder (fst start))) by (exists []; reflexivity).
  pose proof (iteration_agrees _ _ _ _ _ _ _ _ G (A _ A1)) as A2. rewrite <- app_assoc in A2. exists (f_last_time s2), (if f_on s2 then ofZ 100 else ofZ 0).
  split; [exact A2|]. destruct (iteration_thermostat _ _ _ _ _ _ G) as [T1 T2]. split.
  - intros L B. destruct (T1 L B) as [K|K]; [left; now rewrite K|now right].
  - intros B. destruct (T2 B) as [K|K]; [left; now rewrite K|now right].
Qed.
Print Assumptions C90_thermostat.
End Any.

(* ---------- coefficients, in exact arithmetic ---------- *)
Section Exact.
Local Open Scope R_scope.
(** Between rounds: what is known about the sums and the extremes. *)
Definition sound (target : R) (s : finder RN) : Prop :=
  (0 <= f_cycle s)%Z /\ f_count s = Z.max 0 (f_cycle s - 2) /\ 0 <= f_acc s /\ ((2 < f_cycle s)%Z -> 0 < f_acc s) /\
  ((1 <= f_cycle s)%Z -> f_cycle_time s <= f_last_time s) /\ ((2 < f_cycle s)%Z -> target <= f_max s) /\
  ((3 < f_cycle s)%Z \/ (f_cycle s = 3%Z /\ f_on s = true) -> f_min s < target).
Ltac rdec := repeat match goal with
  | H : context [Rltb ?a ?b] |- _ => unfold Rltb in H | |- context [Rltb ?a ?b] => unfold Rltb
  | H : context [Rleb ?a ?b] |- _ => unfold Rleb in H
  | H : context [Rlt_dec ?a ?b] |- _ => destruct (Rlt_dec a b) | |- context [Rlt_dec ?a ?b] => destruct (Rlt_dec a b)
  | H : context [Rle_dec ?a ?b] |- _ => destruct (Rle_dec a b) end.
Lemma sound_start target t0 : sound target (start_finder (N:=RN) t0).
Proof. unfold sound, start_finder; cbn. repeat split; try lia; try lra. Qed.
(** After lines 39-54, before lines 58-62. *)
Definition sound_mid (target t : R) (s : finder RN) : Prop :=
  (0 <= f_cycle s)%Z /\ f_count s = Z.max 0 (f_cycle s - 2) /\ 0 <= f_acc s /\ ((2 < f_cycle s)%Z -> 0 < f_acc s) /\
  ((1 <= f_cycle s)%Z -> f_cycle_time s <= f_last_time s) /\ ((2 < f_cycle s)%Z -> target <= f_max s \/ target <= t) /\
  ((3 < f_cycle s)%Z \/ (f_cycle s = 3%Z /\ f_on s = true) -> f_min s < target \/ t < target).
Lemma sound_extremes target t s : sound_mid target t s -> sound target (extremes (N:=RN) t s).
Proof.
  intros (A & B & C & D & E & F & G). unfold extremes. destruct (Z.ltb_spec 2 (f_cycle s)) as [L|L].
  - unfold sound; cbn [f_cycle f_count f_acc f_cycle_time f_last_time f_max f_min f_on]. cbn [ltb RN]. repeat split; auto.
    + intros K. specialize (F K). rdec; lra.
    + intros K. specialize (G K). rdec; lra.
  - unfold sound. repeat split; auto; intros; lia.
Qed.
Lemma sound_off target now t s : sound target s -> target <= t -> f_on s = true -> f_last_time s < now ->
  sound_mid target t (turned_off (N:=RN) now s).
Proof.
  intros (A & B & C & D & E & F & G) T O L. unfold sound_mid, turned_off; cbn [f_cycle f_count f_acc f_cycle_time f_last_time f_max f_min f_on].
  cbn [add sub RN]. split; [lia|]. destruct (Z.ltb_spec 2 (f_cycle s + 1)) as [K|K].
  - assert (P := E ltac:(lia)). split; [lia|]. split; [lra|]. split; [intros _; lra|]. split; [lra|]. split; [auto|]. intros [Q|[Q R]]; [|discriminate].
    left. apply G. destruct (Z.eq_dec (f_cycle s) 3); [right; auto|left; lia].
  - split; [lia|]. split; [exact C|]. split; [intros; lia|]. split; [lra|]. split; intros; lia.
Qed.
Lemma sound_weaken target t s : sound target s -> sound_mid target t s.
Proof. intros (A & B & C & D & E & F & G). unfold sound_mid. repeat split; auto. Qed.
Lemma iteration_sound target now t s s1 c stop : iteration (N:=RN) target now t s = (s1, c, stop) -> sound target s -> sound target s1.
Proof.
  unfold iteration. cbn [ltb leb sub ofdec RN]. intros H S. destruct (Rleb target t && f_on s && _) eqn:E.
  - apply andb_prop in E. destruct E as [E K]. apply andb_prop in E. destruct E as [E O]. cbn [pow] in K.
    assert (T: target <= t) by (unfold Rleb in E; destruct (Rle_dec target t); [assumption|discriminate]).
    assert (L: f_last_time s < now) by (unfold Rltb in K; destruct (Rlt_dec _ _) as [V|]; [|discriminate]; lra).
    assert (B: Rltb t target = false) by (unfold Rltb; destruct (Rlt_dec t target); [lra|reflexivity]).
    rewrite B in H. cbn [andb] in H. injection H as <- <- <-. apply sound_extremes, sound_off; assumption.
  - destruct (Rltb t target && negb (f_on s) && _) eqn:Q.
    + destruct (7 <? f_cycle s)%Z eqn:V; injection H as <- <- <-; [exact S|]. apply sound_extremes.
      apply andb_prop in Q. destruct Q as [Q K]. apply andb_prop in Q. destruct Q as [Q _]. cbn [pow] in K.
      assert (T: t < target) by (unfold Rltb in Q; destruct (Rlt_dec t target); [assumption|discriminate]).
      assert (L: f_last_time s < now) by (unfold Rltb in K; destruct (Rlt_dec _ _) as [V0|]; [|discriminate]; lra).
      destruct S as (A & B & C & D & X & F & G). unfold sound_mid, turned_on; cbn [f_cycle f_count f_acc f_cycle_time f_last_time f_max f_min f_on].
      repeat split; auto. intros Y. specialize (X Y). lra.
    + injection H as <- <- <-. apply sound_extremes, sound_weaken, S.
Qed.
Lemma loop_sound target ins : forall s s1 c, finder_loop (N:=RN) target ins s = (c, Some (Ok s1)) -> sound target s -> sound target s1 /\ (7 < f_cycle s1)%Z.
Proof.
  induction ins as [|[now [t|e]] ins IH]; intros s s1 c H S; cbn [finder_loop] in H; try discriminate.
  destruct (iteration target now t s) as [[s2 c0] stop] eqn:E. pose proof (iteration_sound _ _ _ _ _ _ _ E S) as S2. destruct stop.
  - injection H as <- <-. split; [exact S2|exact (proj2 (iteration_stops _ _ _ _ _ _ E))].
  - destruct (finder_loop target ins s2) as [c' o] eqn:F. injection H as <- ->. exact (IH _ _ _ F S2).
Qed.
Lemma coefficients_positive target s : sound target s -> (7 < f_cycle s)%Z -> exists p i d, coefficients (N:=RN) s = Ok (p, i, d) /\ 0 < p /\ 0 < i /\ 0 < d.
Proof.
  intros (A & B & C & D & E & F & G) L. assert (D' := D ltac:(lia)). assert (F' := F ltac:(lia)). assert (G' := G ltac:(lia)).
  assert (K: 0 < IZR (f_count s)) by (apply IZR_lt; lia).
  unfold coefficients. cbn [div sub mul ofZ ofdec RN]. destruct (Req_EM_T (IZR (f_count s)) 0) as [Z|_]; [lra|].
  assert (T: 0 < f_acc s / IZR (f_count s)) by (apply Rdiv_lt_0_compat; assumption). cbn [pow].
  repeat match goal with |- context [Req_EM_T ?a 0] => destruct (Req_EM_T a 0) as [Q|_]; [exfalso; try lra|] end.
  do 3 eexists. split; [reflexivity|]. repeat split; apply Rdiv_lt_0_compat; lra.
Qed.

(** Whatever clock and sensor give: the finder raises nothing of its own, and the
    coefficients it returns are positive. Exact arithmetic. *)
Theorem C90_coefficients target start ins l o :
  run_finder (N:=RN) target start ins = (l, Some o) ->
  (exists p i d, o = Ok (p, i, d) /\ 0 < p /\ 0 < i /\ 0 < d) \/ (exists t e, In (t, Raise e) (start :: ins) /\ o = Raise e).
Proof.
  unfold run_finder. destruct start as [t0 [r|e]]; cbn [snd fst].
  2: { intros H. injection H as <- <-. right. exists t0, e. split; [now left|reflexivity]. }
  destruct (finder_loop target ins (start_finder t0)) as [c [[s|e]|]] eqn:E; intros H; try discriminate H; injection H as <- <-.
  - left. destruct (loop_sound _ _ _ _ _ E (sound_start _ _)) as [S L]. exact (coefficients_positive _ _ S L).
  - right. clear - E. revert E. generalize (start_finder (N:=RN) t0). revert c. induction ins as [|[now [t|e']] ins IH]; intros c s H; cbn [finder_loop] in H; try discriminate.
    + destruct (iteration target now t s) as [[s2 c0] stop] eqn:F. destruct stop; [discriminate|].
      destruct (finder_loop target ins s2) as [c' o'] eqn:G. injection H as <- ->. destruct (IH _ _ G) as (t' & e' & [K|K] & V).
      * discriminate K.
      * exists t', e'. split; [right; right; exact K|exact V].
    + injection H as <- <-. exists now, e'. split; [right; now left|reflexivity].
Qed.
Print Assumptions C90_coefficients.

(** The sums against the times of switching off. *)
Definition counted (l : list (R * R)) (s : finder RN) : Prop :=
  Z.of_nat (length (offs l)) = f_cycle s /\ ((1 <= f_cycle s)%Z -> last (offs l) 0 = f_cycle_time s) /\
  f_acc s = (if (2 <? f_cycle s)%Z then f_cycle_time s - nth 1 (offs l) 0 else 0) /\ ((f_cycle s <= 7)%Z \/ f_cycle s = 8%Z /\ f_on s = false).
Lemma offs_off l now : offs (l ++ [(now, 0)]) = offs l ++ [now].
Proof. unfold offs. rewrite filter_app, map_app. cbn [filter snd map]. destruct (Req_EM_T 0 0); [reflexivity|lra]. Qed.
Lemma offs_on l now : offs (l ++ [(now, 100)]) = offs l.
Proof. unfold offs. rewrite filter_app, map_app. cbn [filter snd map]. destruct (Req_EM_T 100 0); [lra|]. cbn [map]. apply app_nil_r. Qed.
Lemma counted_extremes l t s : counted l s -> counted l (extremes (N:=RN) t s).
Proof. unfold extremes. destruct (2 <? f_cycle s)%Z eqn:E; [|auto]. unfold counted; cbn [f_cycle f_acc f_cycle_time f_on]. auto. Qed.
Lemma counted_off l s now : counted l s -> f_on s = true -> counted (l ++ [(now, 0)]) (turned_off (N:=RN) now s).
Proof.
  intros (A & B & C & D) O. assert (D' : (f_cycle s <= 7)%Z) by (destruct D as [D|[_ D]]; [exact D|congruence]).
  unfold counted, turned_off; cbn [f_cycle f_acc f_cycle_time f_on]. rewrite offs_off. cbn [add sub RN]. rewrite app_length. cbn [length].
  split; [lia|]. split; [intros _; apply last_last|]. split; [|destruct (Z.eq_dec (f_cycle s) 7); [right; split; [lia|reflexivity]|left; lia]].
  destruct (Z.ltb_spec 2 (f_cycle s + 1)) as [K|K].
  - rewrite app_nth1 by lia. rewrite C. destruct (Z.ltb_spec 2 (f_cycle s)) as [V|V]; [lra|]. rewrite <- B by lia.
    destruct (offs l) as [|a [|b [|c r]]]; cbn [length] in A; try lia. cbn [last nth]. lra.
  - rewrite C. destruct (Z.ltb_spec 2 (f_cycle s)); [lia|reflexivity].
Qed.
Lemma iteration_counted target now t s s1 c stop l : iteration (N:=RN) target now t s = (s1, c, stop) -> counted l s -> counted (l ++ c) s1.
Proof.
  unfold iteration. cbn [ltb leb sub ofdec ofZ RN]. intros H S. destruct (Rleb target t && f_on s && _) eqn:E.
  - apply andb_prop in E. destruct E as [E _]. apply andb_prop in E. destruct E as [E O].
    assert (B: Rltb t target = false) by (unfold Rltb; unfold Rleb in E; destruct (Rle_dec target t); [|discriminate]; destruct (Rlt_dec t target); [lra|reflexivity]).
    rewrite B in H. cbn [andb] in H. injection H as <- <- <-. apply counted_extremes, counted_off; assumption.
  - destruct (Rltb t target && negb (f_on s) && _) eqn:Q.
    + destruct (Z.ltb_spec 7 (f_cycle s)) as [V|V]; injection H as <- <- <-; [now rewrite app_nil_r|]. apply counted_extremes.
      destruct S as (A & B & C & D). unfold counted, turned_on; cbn [f_cycle f_acc f_cycle_time f_on app]. rewrite offs_on. auto.
    + injection H as <- <- <-. rewrite app_nil_r. apply counted_extremes, S.
Qed.
(** The extremes are readings. *)
Definition read (ins : list (R * res R)) (x : R) : Prop := exists now, In (now, Ok x) ins.
Definition seen (ins : list (R * res R)) (s : finder RN) : Prop := (f_max s = 0 \/ read ins (f_max s)) /\ (f_min s = 10000 \/ read ins (f_min s)).
Lemma iteration_seen ins target now t s s1 c stop : iteration (N:=RN) target now t s = (s1, c, stop) -> In (now, Ok t) ins -> seen ins s -> seen ins s1.
Proof.
  assert (X: forall s, In (now, Ok t) ins -> seen ins s -> seen ins (extremes (N:=RN) t s)).
  { intros s' I (A & B). unfold extremes. destruct (2 <? _)%Z; [|split; auto]. cbn [ltb RN]. split; cbn [f_max f_min].
    - destruct (Rltb (f_max s') t); [right; exists now; exact I|exact A].
    - destruct (Rltb t (f_min s')); [right; exists now; exact I|exact B]. }
  unfold iteration. intros H I S. destruct (leb target t && f_on s && _); (destruct (ltb t target && _ && _); [destruct (7 <? _)%Z|]); injection H as <- <- <-;
    try (apply X; [exact I|]); exact S.
Qed.
Lemma loop_counted target all ins : forall s s1 c l, finder_loop (N:=RN) target ins s = (c, Some (Ok s1)) -> incl ins all -> counted l s -> seen all s ->
  counted (l ++ c) s1 /\ seen all s1.
Proof.
  induction ins as [|[now [t|e]] ins IH]; intros s s1 c l H I S W; cbn [finder_loop] in H; try discriminate.
  destruct (iteration target now t s) as [[s2 c0] stop] eqn:E. pose proof (iteration_counted _ _ _ _ _ _ _ _ E S) as S2.
  pose proof (iteration_seen all _ _ _ _ _ _ _ E (I _ (or_introl eq_refl)) W) as W2. destruct stop.
  - injection H as <- <-. auto.
  - destruct (finder_loop target ins s2) as [c' o] eqn:F. injection H as <- ->. rewrite app_assoc.
    apply (IH _ _ _ _ F); [intros x K; apply I; now right|exact S2|exact W2].
Qed.

Lemma inv_one (a b : R) : a <> 0 -> a = b -> 1 / a * b = 1.
Proof. intros A <-. field. exact A. Qed.
Lemma last_eighth (o : list R) : length o = 8%nat -> last o 0 = nth 7 o 0.
Proof. destruct o as [|a0 [|a1 [|a2 [|a3 [|a4 [|a5 [|a6 [|a7 [|a8 r]]]]]]]]]; try discriminate. reflexivity. Qed.

(** The meaning of the coefficients: the heater was switched off eight times; I and D belong
    to the mean of the last six periods between them, P to the difference between a reading
    at or above the target and one below it. *)
Theorem C90_meaning target start ins l p i d : 0 < target <= 10000 ->
  run_finder (N:=RN) target start ins = (l, Some (Ok (p, i, d))) ->
  length (offs l) = 8%nat /\
  (let period := (nth 7 (offs l) 0 - nth 1 (offs l) 0) / 6 in i * (15 * period) = 1 /\ d * (15 / 100 * period) = 1) /\
  exists hi lo, read ins hi /\ read ins lo /\ lo < target <= hi /\ p * (12 / 10 * (hi - lo)) = 1.
Proof.
  intros T. unfold run_finder. destruct start as [t0 [r|e]]; cbn [snd fst]; [|discriminate].
  destruct (finder_loop (N:=RN) target ins (start_finder (N:=RN) t0)) as [c [[s|e]|]] eqn:E; intros H; try discriminate H. apply pair_equal_spec in H. destruct H as [<- H].
  destruct (loop_sound _ _ _ _ _ E (sound_start _ _)) as [S L]. destruct S as (A & B & C & D & X & F & G).
  assert (D' := D ltac:(lia)). assert (F' := F ltac:(lia)). assert (G' := G ltac:(lia)).
  assert (S0: counted [(t0, 100)] (start_finder (N:=RN) t0)).
  { unfold counted, start_finder, offs; cbn [f_cycle f_acc f_cycle_time f_on filter snd ofZ RN]. destruct (Req_EM_T 100 0); [lra|]. cbn. repeat split; lia. }
  assert (W0: seen ins (start_finder (N:=RN) t0)) by (split; left; reflexivity).
  destruct (loop_counted target ins ins _ _ _ _ E (incl_refl _) S0 W0) as [(P1 & P2 & P3 & P4) (W1 & W2)].
  cbn [app ofZ RN] in *. assert (N8: f_cycle s = 8%Z) by lia. rewrite N8 in P3, B. cbn in B. change (2 <? 8)%Z with true in P3. cbv iota in P3.
  assert (Len: length (offs ((t0, 100) :: c)) = 8%nat) by (apply Nat2Z.inj; exact (eq_trans P1 N8)). split; [exact Len|].
  assert (Q: f_cycle_time s = nth 7 (offs ((t0, 100) :: c)) 0).
  { exact (eq_trans (eq_sym (P2 ltac:(lia))) (last_eighth _ Len)). }
  rewrite Q in P3. assert (D2 : 0 < (nth 7 (offs ((t0, 100) :: c)) 0 - nth 1 (offs ((t0, 100) :: c)) 0)%R) by (exact (eq_ind _ (fun a : R => 0 < a) D' _ P3)).
  unfold coefficients in H. rewrite B, P3 in H. cbn [div sub mul ofZ ofdec RN pow] in H. cbv zeta. change (num RN) with R in *.
  revert H D2. generalize (nth 7 (offs ((t0, 100) :: c)) 0 - nth 1 (offs ((t0, 100) :: c)) 0). intros per H D2.
  destruct (Req_EM_T 6 0) as [Z|_]; [lra|].
  repeat match type of H with context [Req_EM_T ?a 0] => destruct (Req_EM_T a 0) as [Z|_]; [exfalso; lra|] end.
  injection H as <- <- <-. split; [split; (refine (inv_one _ _ _ _); lra)|].
  exists (f_max s), (f_min s). split; [destruct W1 as [W1|W1]; [lra|exact W1]|]. split; [destruct W2 as [W2|W2]; [lra|exact W2]|].
  split; [lra|]. refine (inv_one _ _ _ _); lra.
Qed.
Print Assumptions C90_meaning.
End Exact.

(* ---------- the end of the program ---------- *)
Section End.
Context {N : PyNum}.
Lemma power_app h (a b : list (util_call N)) : forall p, power_of h (a ++ b) p = power_of h b (power_of h a p).
Proof. induction a as [|e a IH]; intros p; [reflexivity|]. destruct e; cbn [power_of app]; apply IH. Qed.
Lemma fan_app (a b : list (util_call N)) : forall p, fan_of (a ++ b) p = fan_of b (fan_of a p).
Proof. induction a as [|e a IH]; intros p; [reflexivity|]. destruct e; cbn [fan_of app]; apply IH. Qed.
Lemma power_other (l : list (N * N)) : forall p, power_of HeaterExtruder (powers HeaterBed l) p = p.
Proof. induction l as [|a l IH]; intros p; [reflexivity|]. cbn [powers map power_of]. apply IH. Qed.
End End.
(** C90, end of the program: if measurements fail with nothing but IOError, it ends by itself
    with both heaters and the fan switched off and deinit called. Exact arithmetic. Missing:
    keyboard interrupts (below) and other exceptions (C90_end_refuted). *)
Theorem C90_end_partial x y es r : util_main (N:=RN) x y = (es, Some r) ->
  only_io (fst x :: snd x) -> only_io (fst y :: snd y) ->
  r = Ok tt /\ (exists es0, es = es0 ++ [UDeinit]) /\ fan_of es true = false /\ forall h q, power_of h es q = 0%R.
Proof.
  unfold util_main. intros H X Y. destruct (run_finder (N:=RN) (ofZ 200) (fst x) (snd x)) as [lx ox] eqn:E. destruct ox as [ox|]; [|discriminate].
  assert (A: (exists v, ox = Ok v) \/ ox = Raise IOErr).
  { destruct (C90_coefficients _ _ _ _ _ E) as [(p & i & d & -> & _)|(t & e & K & ->)]; [eauto|]. rewrite (X t e K). auto. }
  assert (H': match run_finder (N:=RN) (ofZ 70) (fst y) (snd y) with (ly, oy) =>
    let second := (UFan true :: powers HeaterExtruder lx) ++ UPower HeaterExtruder (ofZ 0) :: powers HeaterBed ly in
    match oy with
    | None => (second, None)
    | Some (Raise KeyboardInterrupt) => (second ++ [UDeinit], Some (Ok tt))
    | Some (Ok _) | Some (Raise IOErr) => (second ++ [UPower HeaterBed (ofZ 0); UFan false; UDeinit], Some (Ok tt))
    | Some (Raise e) => (second, Some (Raise e))
    end end = (es, Some r)) by (destruct A as [(v & ->)| ->]; exact H).
  clear H. destruct (run_finder (N:=RN) (ofZ 70) (fst y) (snd y)) as [ly oy] eqn:F. destruct oy as [oy|]; [|discriminate].
  assert (B: (exists v, oy = Ok v) \/ oy = Raise IOErr).
  { destruct (C90_coefficients _ _ _ _ _ F) as [(p & i & d & -> & _)|(t & e & K & ->)]; [eauto|]. rewrite (Y t e K). auto. }
  assert (R: es = ((UFan true :: powers HeaterExtruder lx) ++ UPower HeaterExtruder (ofZ 0) :: powers HeaterBed ly) ++ [UPower HeaterBed (ofZ 0); UFan false; UDeinit] /\ r = Ok tt)
    by (destruct B as [(v & ->)| ->]; cbv zeta in H'; split; congruence).
  destruct R as [-> ->]. split; [reflexivity|]. split.
  { exists (((UFan true :: powers HeaterExtruder lx) ++ UPower HeaterExtruder (ofZ 0) :: powers HeaterBed ly) ++ [UPower HeaterBed (ofZ 0); UFan false]). now rewrite <- !app_assoc. }
  split; [rewrite fan_app; reflexivity|]. intros h q. rewrite !power_app. destruct h; cbn [power_of]; [apply power_other|reflexivity].
Qed.
Print Assumptions C90_end_partial.
(** The same if there may be keyboard interrupts: then deinit is called (it does not always
    work: C65). *)
Theorem C90_interrupt_partial x y es r : util_main (N:=RN) x y = (es, Some r) ->
  (forall t e, In (t, Raise e) ((fst x :: snd x) ++ (fst y :: snd y)) -> e = IOErr \/ e = KeyboardInterrupt) ->
  r = Ok tt /\ exists es0, es = es0 ++ [UDeinit].
Proof.
  unfold util_main. intros H X. destruct (run_finder (N:=RN) (ofZ 200) (fst x) (snd x)) as [lx ox] eqn:E. destruct ox as [ox|]; [|discriminate].
  destruct (run_finder (N:=RN) (ofZ 70) (fst y) (snd y)) as [ly oy] eqn:F.
  assert (A: (exists v, ox = Ok v) \/ ox = Raise IOErr \/ ox = Raise KeyboardInterrupt).
  { destruct (C90_coefficients _ _ _ _ _ E) as [(p & i & d & -> & _)|(t & e & K & ->)]; [eauto|].
    destruct (X t e) as [->| ->]; [apply in_or_app; left; exact K|auto..]. }
  assert (B: oy = None \/ (exists v, oy = Some (Ok v)) \/ oy = Some (Raise IOErr) \/ oy = Some (Raise KeyboardInterrupt)).
  { destruct oy as [oy|]; [right|auto]. destruct (C90_coefficients _ _ _ _ _ F) as [(p & i & d & -> & _)|(t & e & K & ->)]; [eauto|].
    destruct (X t e) as [->| ->]; [apply in_or_app; right; exact K|auto..]. }
  assert (Fin : forall a (b : list (util_call RN)), exists es0, a ++ b ++ [UDeinit] = es0 ++ [UDeinit]) by (intros a b; exists (a ++ b); now rewrite app_assoc).
  destruct A as [(v & ->)|[->| ->]].
  1, 2: destruct B as [->|[(w & ->)|[->| ->]]]; try discriminate H; apply pair_equal_spec in H; destruct H as [<- H]; (split; [congruence|]).
  1, 2, 4, 5: match goal with |- exists es0, ?a ++ [?u; ?f; UDeinit] = _ => exact (Fin a [u; f]) end.
  1, 2: match goal with |- exists es0, ?a ++ [UDeinit] = _ => exact (Fin a []) end.
  injection H as <- <-. split; [reflexivity|]. exists (UFan true :: powers HeaterExtruder lx). reflexivity.
Qed.
Print Assumptions C90_interrupt_partial.

(** C90 fails at the end for other exceptions (struct.error of a measurement, C43): the
    program ends with full power on the heater, without deinit. *)
Theorem C90_end_refuted (N : PyNum) : exists (x y : (N * res N) * list (N * res N)) es e, util_main x y = (es, Some (Raise e)) /\
  power_of HeaterExtruder es (ofZ 0) = ofZ 100 /\ fan_of es false = true /\ ~ In UDeinit es.
Proof.
  exists ((ofZ 0, Ok (ofZ 20)), [(ofZ 1, Raise StructError)]), ((ofZ 0, Ok (ofZ 20)), []), [UFan true; UPower HeaterExtruder (ofZ 100)], StructError.
  repeat split. intros [K|[K|[]]]; discriminate.
Qed.
Print Assumptions C90_end_refuted.

(** C90 fails on the board: hal.init has started the watchdog and no call of the program
    ([util_call]) feeds it. Blocks taking at most [D], the pins of both heaters and of the
    fan are inputs 2050 blocks after the start, and from then on: nothing can be heated for
    longer, whatever the finder sends. *)
Theorem C90_unfed_refuted base m g l D until :
  (0 < base /\ base + 65536 < 2 ^ 32)%Z -> (0 < D)%Z -> fed_at l = [] -> at_most D 0 until (completed_at l) -> (2050 * D <= until)%Z ->
  forall p, In p [extruder_pin default_hal; bed_pin default_hal; fan_pin default_hal] ->
  function_of (x_gpio (after_ops base (wd_memory base m) g (events l))) p = 0%Z.
Proof.
  intros B HD F M U p P. apply (C86_ended base m g [] l D 0 until B HD F M U).
  destruct P as [<-|[<-|[<-|[]]]]; cbn; lia.
Qed.
Print Assumptions C90_unfed_refuted.

Example C90_unfed_refuted_ex : exists l : timed, fed_at l = [] /\ at_most 7500 0 15375000 (completed_at l) /\ (2050 * 7500 <= 15375000)%Z.
Proof. exists (beats 0 2050 []). split; [apply beats_fed|]. split; [apply beats_at_most; lia|reflexivity]. Qed.

(* ---------- examples ---------- *)
Section ExF.
Variable acos : f64 -> f64.
Definition at_s (t : Z) (x : Z) : f64 * res f64 := (ofZ (p:=F64 acos) t, Ok (ofZ (p:=F64 acos) x)).
Definition shown (ins : list (f64 * res f64)) : list (res Z * res Z) * bool :=
  match run_finder (N:=F64 acos) (ofZ (p:=F64 acos) 200) (at_s 0 20) ins with
  | (l, o) => (map (fun a => (trunc (p:=F64 acos) (fst a), trunc (p:=F64 acos) (snd a))) l, match o with None => true | Some _ => false end) end.
(** Up to 201 degrees at second 60, then down to 199. *)
Example C90_thermostat_ex :
  shown [at_s 30 150; at_s 60 201; at_s 61 202] = ([(Ok 0, Ok 100); (Ok 60, Ok 0)]%Z, true) /\
  shown [at_s 30 150; at_s 60 201; at_s 61 202; at_s 70 199] = ([(Ok 0, Ok 100); (Ok 60, Ok 0); (Ok 70, Ok 100)]%Z, true).
Proof. split; vm_compute; reflexivity. Qed.
End ExF.
Section ExR.
Local Open Scope R_scope.
(** [n] times a degree above and a degree below the target, every second. *)
Fixpoint swings (target : R) (n : nat) (now : R) : list (R * res R) :=
  match n with O => [] | S n => (now, Ok (target + 1)) :: (now + 1, Ok (target - 1)) :: swings target n (now + 2) end.
Lemma swings_loop target n : forall (s : finder RN) now, f_on s = true -> f_last_time s + 1 <= now -> (f_cycle s + Z.of_nat n = 8)%Z -> (1 <= n)%nat ->
  exists c s1, finder_loop (N:=RN) target (swings target n now) s = (c, Some (Ok s1)).
Proof.
  induction n as [|n IH]; intros s now O L C P; [lia|]. cbn [swings finder_loop].
  assert (T1: Rleb target (target + 1) = true) by (unfold Rleb; destruct (Rle_dec _ _); [reflexivity|lra]).
  assert (T2: Rltb (target + 1) target = false) by (unfold Rltb; destruct (Rlt_dec _ _); [lra|reflexivity]).
  assert (T3: Rleb target (target - 1) = false) by (unfold Rleb; destruct (Rle_dec _ _); [lra|reflexivity]).
  assert (T4: Rltb (target - 1) target = true) by (unfold Rltb; destruct (Rlt_dec _ _); [reflexivity|lra]).
  assert (W: forall a b : R, a + 1 <= b -> Rltb (1 * (1 / (10 * 1))) (b - a) = true) by (intros a b K; unfold Rltb; destruct (Rlt_dec _ _); [reflexivity|lra]).
  unfold iteration at 1. cbn [leb ltb sub ofdec RN pow]. rewrite T1, T2, O, (W _ _ L). cbn [andb].
  set (s1 := extremes (N:=RN) (target + 1) (turned_off (N:=RN) now s)).
  destruct (extremes_keeps (N:=RN) (target + 1) (turned_off (N:=RN) now s)) as [O1 L1]. fold s1 in O1, L1. cbn [turned_off f_on f_last_time] in O1, L1.
  assert (C1: f_cycle s1 = (f_cycle s + 1)%Z) by (unfold s1, extremes; destruct (2 <? _)%Z; reflexivity).
  unfold iteration at 1. cbn [leb ltb sub ofdec RN pow]. rewrite T3, T4, O1, L1, (W now (now + 1) ltac:(lra)). cbn [andb negb]. rewrite O1. cbn [negb].
  destruct (Z.ltb_spec 7 (f_cycle s1)) as [K|K]; [do 2 eexists; reflexivity|].
  set (s2 := extremes (N:=RN) (target - 1) (turned_on (N:=RN) (now + 1) s1)).
  destruct (extremes_keeps (N:=RN) (target - 1) (turned_on (N:=RN) (now + 1) s1)) as [O2 L2]. fold s2 in O2, L2. cbn [turned_on f_on f_last_time] in O2, L2.
  assert (C2: f_cycle s2 = f_cycle s1) by (unfold s2, extremes; destruct (2 <? _)%Z; reflexivity).
  destruct (IH s2 (now + 2)) as (c & s3 & E); [exact O2|lra|lia|lia|]. cbn [andb]. cbv beta iota. rewrite E. do 2 eexists. reflexivity.
Qed.
Lemma swings_run target : exists l o, run_finder (N:=RN) target (0, Ok 20) (swings target 8 1) = (l, Some (Ok o)).
Proof.
  destruct (swings_loop target 8 (start_finder (N:=RN) 0) 1) as (c & s & E); [reflexivity|cbn; lra|reflexivity|lia|].
  destruct (C90_coefficients target (0, Ok 20) (swings target 8 1) ((0, 100) :: c) (coefficients (N:=RN) s)) as [(p & i & d & K & _)|(t & e & K & _)].
  - unfold run_finder. cbn [fst snd]. now rewrite E.
  - exists ((0, 100) :: c), (p, i, d). unfold run_finder. cbn [fst snd]. now rewrite E, K.
  - cbn [In swings] in K. intuition discriminate.
Qed.
Example C90_coefficients_ex : exists l o, run_finder (N:=RN) 200 (0, Ok 20) (swings 200 8 1) = (l, Some (Ok o)).
Proof. apply swings_run. Qed.
(** The hypotheses of C90_meaning; the target of the extruder. *)
Example C90_meaning_ex : 0 < 200 <= 10000 /\ exists l p i d, run_finder (N:=RN) 200 (0, Ok 20) (swings 200 8 1) = (l, Some (Ok (p, i, d))).
Proof. split; [lra|]. destruct (swings_run 200) as (l & [[p i] d] & E). eauto. Qed.
(** The extruder is measured, the sensor of the bed fails while it is heated. *)
Example C90_end_partial_ex : exists es, util_main (N:=RN) ((0, Ok 20), swings 200 8 1) ((0, Ok 20), [(5, Raise IOErr)]) = (es, Some (Ok tt)) /\
  only_io (N:=RN) ((0, Ok 20) :: swings 200 8 1) /\ only_io (N:=RN) [(0, Ok 20); (5, Raise IOErr)].
Proof.
  destruct (swings_run 200) as (l & o & E). eexists. split; [|split].
  - unfold util_main. cbn [fst snd]. change (ofZ (p:=RN) 200) with 200. rewrite E. reflexivity.
  - intros t e K. cbn [In swings] in K. intuition discriminate.
  - intros t e [K|[K|[]]]; congruence.
Qed.
Example C90_interrupt_partial_ex : (exists es, util_main (N:=RN) ((0, Ok 20), swings 200 8 1) ((0, Ok 20), [(5, Raise KeyboardInterrupt)]) = (es, Some (Ok tt))) /\
  forall t e, In (t, Raise e) (((0, Ok 20) :: swings 200 8 1) ++ [(0, Ok 20); (5, Raise KeyboardInterrupt)]) -> e = IOErr \/ e = KeyboardInterrupt.
Proof.
  split.
  - destruct (swings_run 200) as (l & o & E). eexists. unfold util_main. cbn [fst snd]. change (ofZ (p:=RN) 200) with 200. rewrite E. reflexivity.
  - intros t e K. cbn [In swings app] in K. intuition (try discriminate). right. congruence.
Qed.
End ExR.
