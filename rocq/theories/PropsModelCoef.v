(** Property C91, continued: the meaning of the coefficients which the heater model finder
    returns. The theorem is followed by its assumptions and by an Example. *)
From Coq Require Import ZArith Bool Reals Lra Lia List.
From Verif Require Import PyBase PyNum PyFloatFacts Config PidFinder PidFinderSpec PropsPidFinder ModelFinder PropsModelFinder.
From Verif Require Import PyBase PyNum.
From Coq Require Import List.
Import ListNotations.
Local Open Scope R_scope.

Section Coefficients.
Variable max delta : R.
Notation inputs := (list (R * res R)).
(** Difference of the mean of two temperatures from 25 degrees. *)
Definition excess (a b : R) : R := Rabs ((a + b) / 2 - 25).
(** Two readings, the second later: per second, the change for one degree of [excess] is
    between lo and hi. *)
Definition cools (lo hi : R) (p q : R * res R) : Prop :=
  match snd p, snd q with
  | Ok a, Ok b => 1 <= Rabs (a - b) -> fst p < fst q /\ lo * ((fst q - fst p) * excess a b) <= Rabs (a - b) <= hi * ((fst q - fst p) * excess a b)
  | _, _ => True
  end.
(** Two readings, the second later and not below max - delta: per second, the rise together
    with what is lost by cooling with c is between lo and hi. *)
Definition warms (c lo hi : R) (p q : R * res R) : Prop :=
  match snd p, snd q with
  | Ok a, Ok b => 1 <= Rabs (a - b) -> max - delta <= b ->
    fst p < fst q /\ lo * (fst q - fst p) <= b - a + c * (fst q - fst p) * excess a b <= hi * (fst q - fst p)
  | _, _ => True
  end.

Lemma changed_RN a b : changed (N:=RN) a b = if Rle_dec 1 (Rabs (a - b)) then true else false.
Proof. reflexivity. Qed.
Lemma above_ok a b x : above_environment (N:=RN) a b = Ok x -> x = excess a b.
Proof.
  unfold above_environment. cbn [div RN ofZ add]. destruct (Req_EM_T (IZR 2) 0); [lra|]. intros H. injection H as <-. reflexivity.
Qed.
Lemma div_ok a b x : div (p:=RN) a b = Ok x -> b <> 0 /\ x = a / b.
Proof. cbn [div RN]. destruct (Req_EM_T b 0); intros H; [discriminate|]. injection H as <-. auto. Qed.
Lemma quot_between lo hi x y : 0 < y -> lo * y <= x <= hi * y -> lo <= x / y <= hi.
Proof.
  intros Y [A B]. split; apply (Rmult_le_reg_r y); auto; unfold Rdiv; rewrite Rmult_assoc, Rinv_l, Rmult_1_r; lra.
Qed.
Lemma fop_drop {A} (P : A -> A -> Prop) a b l : ForallOrdPairs P (a :: b :: l) -> ForallOrdPairs P (a :: l).
Proof. intros H. inversion H as [|? ? U V]; subst. inversion U; subst. inversion V; subst. constructor; auto. Qed.
Lemma fop_tail {A} (P : A -> A -> Prop) a l : ForallOrdPairs P (a :: l) -> ForallOrdPairs P l.
Proof. intros H. inversion H; auto. Qed.
Lemma fop_head {A} (P : A -> A -> Prop) a b l : ForallOrdPairs P (a :: b :: l) -> P a b.
Proof. intros H. inversion H as [|? ? U V]; subst. inversion U; auto. Qed.

Lemma phase1_from ins : forall h lt lm l t1 m1 r1, phase1 (N:=RN) max ins h lt lm = (l, Some (Ok (t1, m1, r1))) ->
  exists pre now t, ins = pre ++ (now, Ok t) :: r1 /\ t <= max /\ In (m1, Ok t1) ((lm, Ok lt) :: pre).
Proof.
  induction ins as [|[now [t|e]] r IH]; intros h lt lm l t1 m1 r1; cbn [phase1]; intros H; try discriminate.
  match type of H with (let '(_, _) := ?x in _) = _ => destruct x as [c h'] end. destruct (h' && leb (p:=RN) t max) eqn:B.
  - injection H as _ <- <- <-. exists [], now, t. split; [reflexivity|]. split; [|now left].
    apply andb_true_iff in B. destruct B as [_ B]. cbn [leb RN] in B. unfold Rleb in B. destruct (Rle_dec t max); [assumption|discriminate].
  - destruct (changed lt t); cbv iota in H; destruct (phase1 _ _ _ _ _) as [c' o'] eqn:F; injection H as _ ->;
      destruct (IH _ _ _ _ _ _ _ F) as (pre & now' & t' & -> & L & K); exists ((now, Ok t) :: pre), now', t'; (split; [reflexivity|]); (split; [exact L|]).
    + right. exact K.
    + destruct K as [K|K]; [now left|right; now right].
Qed.
Lemma phase2_mean ins : forall lt lm ca cn t2 m2 ca' cn' r2, phase2 (N:=RN) max delta ins lt lm ca cn = Some (Ok (t2, m2, ca', cn', r2)) ->
  exists pre now t, ins = pre ++ (now, Ok t) :: r2 /\ t <= max - delta /\ In (m2, Ok t2) ((lm, Ok lt) :: pre) /\ (cn <= cn')%Z /\
  forall lo hi, ForallOrdPairs (cools lo hi) ((lm, Ok lt) :: pre) -> lo * IZR cn <= ca <= hi * IZR cn -> lo * IZR cn' <= ca' <= hi * IZR cn'.
Proof.
  induction ins as [|[now [t|e]] r IH]; intros lt lm ca cn t2 m2 ca' cn' r2; cbn [phase2]; intros H; try discriminate.
  rewrite changed_RN in H. destruct (Rle_dec 1 (Rabs (lt - t))) as [C|C].
  - cbn [leb sub RN] in H. unfold Rleb in H. destruct (Rle_dec t (max - delta)) as [M|M].
    + injection H as <- <- <- <- <-. exists [], now, t. repeat split; auto; try lia; try tauto. now left.
    + destruct (above_environment lt t) as [a|] eqn:A; [|discriminate]. apply above_ok in A.
      destruct (div _ a) as [q|] eqn:Q in H; [|discriminate]. apply div_ok in Q. destruct Q as [QA Q].
      destruct (div q _) as [v|] eqn:V in H; [|discriminate]. apply div_ok in V. destruct V as [VA V].
      destruct (IH _ _ _ _ _ _ _ _ _ H) as (pre & now' & t' & -> & L & K & G & B). exists ((now, Ok t) :: pre), now', t'.
      split; [reflexivity|]. split; [exact L|]. split; [now right|]. split; [lia|]. intros lo hi F I. apply B; [exact (fop_tail _ _ _ F)|].
      pose proof (fop_head _ _ _ _ F) as P. cbn [cools snd fst] in P. specialize (P C). destruct P as [T P].
      assert (0 < a) by (subst a; unfold excess in *; pose proof (Rabs_pos ((lt + t) / 2 - 25)); lra).
      assert (W: v = Rabs (lt - t) / ((now - lm) * a)).
      { subst v q. cbn [sub absn RN] in *. change (num RN) with R in *. field. lra. }
      assert (0 < (now - lm) * a) by (apply Rmult_lt_0_compat; lra).
      pose proof (quot_between lo hi (Rabs (lt - t)) ((now - lm) * a) ltac:(assumption)) as Z. rewrite <- W in Z. rewrite A in Z. specialize (Z P).
      rewrite plus_IZR. cbn [add RN]. change (num RN) with R in *. lra.
  - destruct (IH _ _ _ _ _ _ _ _ _ H) as (pre & now' & t' & -> & L & K & G & B). exists ((now, Ok t) :: pre), now', t'.
    split; [reflexivity|]. split; [exact L|]. split; [destruct K as [K|K]; [now left|right; now right]|]. split; [exact G|].
    intros lo hi F. apply B. exact (fop_drop _ _ _ _ F).
Qed.
Lemma phase3_mean c ins : forall lt lm ha hn ha' hn', phase3 (N:=RN) max delta c ins lt lm ha hn = Some (Ok (ha', hn')) ->
  exists pre now t rest, ins = pre ++ (now, Ok t) :: rest /\ max < t /\ (hn <= hn')%Z /\
  forall lo hi, 0 <= lo -> ForallOrdPairs (warms c lo hi) ((lm, Ok lt) :: pre) -> lo * IZR hn <= ha <= hi * IZR hn -> lo * IZR hn' <= ha' <= hi * IZR hn'.
Proof.
  induction ins as [|[now [t|e]] r IH]; intros lt lm ha hn ha' hn'; cbn [phase3]; intros H; try discriminate.
  rewrite changed_RN in H. destruct (Rle_dec 1 (Rabs (lt - t))) as [C|C].
  - cbn [leb ltb sub RN] in H. unfold Rltb, Rleb in H. destruct (Rlt_dec max t) as [X|X].
    + injection H as <- <-. exists [], now, t, r. repeat split; auto; try lia; tauto.
    + destruct (Rle_dec (max - delta) t) as [M|M].
      * destruct (above_environment lt t) as [a|] eqn:A; [|discriminate]. apply above_ok in A.
        destruct (div _ _) as [v|] eqn:V in H; [|discriminate]. apply div_ok in V. destruct V as [VA V].
        destruct (IH _ _ _ _ _ _ H) as (pre & now' & t' & rest & -> & L & G & B). exists ((now, Ok t) :: pre), now', t', rest.
        split; [reflexivity|]. split; [exact L|]. split; [lia|]. intros lo hi O F I. apply B; [exact O|exact (fop_tail _ _ _ F)|].
        pose proof (fop_head _ _ _ _ F) as P. cbn [warms snd fst] in P. specialize (P C M). destruct P as [T P].
        assert (0 < now - lm) by lra. rewrite <- A in P.
        assert (0 <= lo * (now - lm)) by (apply Rmult_le_pos; lra).
        assert (W: v = (t - lt + c * (now - lm) * a) / (now - lm)).
        { subst v. cbn [sub absn mul RN] in *. change (num RN) with R in *. f_equal. rewrite Rabs_right; [ring|]. lra. }
        pose proof (quot_between lo hi _ (now - lm) ltac:(assumption) P) as Z. rewrite <- W in Z.
        rewrite plus_IZR. cbn [add RN]. change (num RN) with R in *. lra.
      * destruct (IH _ _ _ _ _ _ H) as (pre & now' & t' & rest & -> & L & G & B). exists ((now, Ok t) :: pre), now', t', rest.
        repeat split; auto; apply (B lo hi); auto; exact (fop_tail _ _ _ H1).
  - destruct (IH _ _ _ _ _ _ H) as (pre & now' & t' & rest & -> & L & G & B). exists ((now, Ok t) :: pre), now', t', rest.
    repeat split; auto; apply (B lo hi); auto; exact (fop_drop _ _ _ _ H1).
Qed.

(** C91. The readings after the start are those of the first heating, which end with one not
    above the maximum, those of cooling, which end with one not above max - delta, and those of
    the second heating, which end with one above the maximum. If between any two readings of
    cooling (with one from the first heating in front) the rate of cooling is within bounds, so
    is the first coefficient; if between any two readings of the second heating (with one of
    cooling in front) the rate of heating is within bounds, so is the second. *)
Theorem C91_meaning start ins l c h : find_model (N:=RN) max delta start ins = (l, Some (Ok (c, h))) ->
  exists heat w1 x1 cool w2 x2 again w3 x3 rest p1 p2,
    ins = heat ++ (w1, Ok x1) :: cool ++ (w2, Ok x2) :: again ++ (w3, Ok x3) :: rest /\
    x1 <= max /\ x2 <= max - delta /\ max < x3 /\ In p1 (start :: heat) /\ In p2 (p1 :: cool) /\
    (forall lo hi, ForallOrdPairs (cools lo hi) (p1 :: cool) -> lo <= c <= hi) /\
    (forall lo hi, 0 <= lo -> ForallOrdPairs (warms c lo hi) (p2 :: again) -> lo <= h <= hi).
Proof.
  unfold find_model. destruct start as [t0 [x0|x]]; cbn [snd fst]; intros H; [|discriminate].
  destruct (phase1 (N:=RN) max ins false x0 t0) as [l1 [[[[t1 m1] r1]|x]|]] eqn:E1; try discriminate H.
  destruct (phase2 (N:=RN) max delta r1 t1 m1 (ofZ 0) 0) as [[[[[[t2 m2] ca] cn] r2]|x]|] eqn:E2; try discriminate H.
  destruct (div ca (ofZ cn)) as [c0|x] eqn:A; [|discriminate H].
  destruct (phase3 (N:=RN) max delta c0 r2 t2 m2 (ofZ 0) 0) as [[[ha hn]|x]|] eqn:E3; try discriminate H.
  destruct (div ha (ofZ hn)) as [h0|x] eqn:B; [|discriminate H]. injection H as _ <- <-.
  destruct (phase1_from _ _ _ _ _ _ _ _ E1) as (heat & w1 & x1 & -> & L1 & K1).
  destruct (phase2_mean _ _ _ _ _ _ _ _ _ _ E2) as (cool & w2 & x2 & -> & L2 & K2 & G2 & B2).
  destruct (phase3_mean _ _ _ _ _ _ _ _ E3) as (again & w3 & x3 & rest & -> & L3 & G3 & B3).
  apply div_ok in A. apply div_ok in B. destruct A as [A1 A2], B as [D1 D2]. cbn [ofZ RN] in *.
  assert (0 < IZR cn). { apply IZR_lt. destruct (Z.eq_dec cn 0) as [->|]; [now elim A1|lia]. }
  assert (0 < IZR hn). { apply IZR_lt. destruct (Z.eq_dec hn 0) as [->|]; [now elim D1|lia]. }
  exists heat, w1, x1, cool, w2, x2, again, w3, x3, rest, (m1, Ok t1), (m2, Ok t2).
  repeat (split; [assumption||reflexivity|]). split.
  - intros lo hi F. rewrite A2. apply quot_between; [assumption|]. apply B2; [exact F|]. lra.
  - intros lo hi O F. rewrite D2. apply quot_between; [assumption|]. apply B3; [exact O|exact F|]. lra.
Qed.
End Coefficients.
Print Assumptions C91_meaning.
(** The finder switches the heater off before it returns coefficients; all number types. *)
Theorem C91_off {N : PyNum} (max delta : N) start ins l c : find_model max delta start ins = (l, Some (Ok c)) -> exists l0, l = l0 ++ [ofZ 0].
Proof.
  unfold find_model. intros H. repeat match type of H with context [match ?x with _ => _ end] => destruct x; try discriminate H end.
  injection H as <- _. match goal with |- exists l0, ?a :: ?k ++ [?b; ?d] = _ => exists (a :: k ++ [b]); cbn [app]; now rewrite <- app_assoc end.
Qed.
Print Assumptions C91_off.

(** The hypotheses of C91_meaning and C91_off hold: a run that ends, and bounds for its cooling and second heating. *)
Lemma abs_is x y : 0 <= y -> (x = y \/ x = - y) -> Rabs x = y.
Proof. intros H [->| ->]; [apply Rabs_right; lra|rewrite Rabs_Ropp; apply Rabs_right; lra]. Qed.
Lemma changed_far a b : 1 <= a - b \/ 1 <= b - a -> changed (N:=RN) a b = true.
Proof.
  intros H. rewrite changed_RN. destruct (Rle_dec 1 (Rabs (a - b))) as [|C]; [reflexivity|]. elim C.
  destruct H; [rewrite Rabs_right; lra|rewrite Rabs_left1; lra].
Qed.
Lemma leb_true a b : a <= b -> leb (p:=RN) a b = true.
Proof. intros H. cbn [leb RN]. unfold Rleb. destruct (Rle_dec a b); [reflexivity|lra]. Qed.
Lemma leb_false a b : b < a -> leb (p:=RN) a b = false.
Proof. intros H. cbn [leb RN]. unfold Rleb. destruct (Rle_dec a b); [lra|reflexivity]. Qed.
Lemma ltb_true a b : a < b -> ltb (p:=RN) a b = true.
Proof. intros H. cbn [ltb RN]. unfold Rltb. destruct (Rlt_dec a b); [reflexivity|lra]. Qed.
Lemma ltb_false a b : b <= a -> ltb (p:=RN) a b = false.
Proof. intros H. cbn [ltb RN]. unfold Rltb. destruct (Rlt_dec a b); [lra|reflexivity]. Qed.
Lemma div_is a b : b <> 0 -> div (p:=RN) a b = Ok (a / b).
Proof. intros H. cbn [div RN]. destruct (Req_EM_T b 0); [contradiction|reflexivity]. Qed.
Lemma above_is a b : above_environment (N:=RN) a b = Ok (excess a b).
Proof. unfold above_environment. rewrite div_is by (cbn [ofZ RN]; lra). reflexivity. Qed.
Example C91_meaning_ex : (exists l c h, find_model (N:=RN) 200 50 (0, Ok 20)
    [(1, Ok 210); (2, Ok 200); (3, Ok 180); (4, Ok 150); (5, Ok 160); (6, Ok 201)] = (l, Some (Ok (c, h)))) /\
  ForallOrdPairs (cools (3 / 34) (3 / 34)) [(1, Ok 210); (3, Ok 180)] /\
  ForallOrdPairs (warms 200 50 (3 / 34) 1 3) [(3, Ok 180); (5, Ok 160)].
Proof.
  split; [|split].
  - assert (E1: excess 210 180 = 170) by (apply abs_is; lra). assert (E2: excess 180 160 = 145) by (apply abs_is; lra).
    do 3 eexists. unfold find_model. cbn [snd fst]. cbn [phase1].
    rewrite (leb_true 200 210) by lra. cbn [andb negb]. rewrite (leb_false 210 200) by lra. cbv iota beta. rewrite (changed_far 20 210) by lra.
    rewrite (leb_true 200 200) by lra. cbn [andb negb app]. cbv iota beta. cbn [phase2].
    rewrite (changed_far 210 180) by lra. change (sub (p:=RN) 200 50) with (200 - 50). rewrite (leb_false 180 (200 - 50)) by lra.
    rewrite above_is, E1, div_is by lra. rewrite div_is by (cbn [sub RN]; lra). rewrite (changed_far 180 150) by lra. rewrite (leb_true 150 (200 - 50)) by lra.
    rewrite div_is by (cbn; lra). cbn [phase3].
    rewrite (changed_far 180 160) by lra. rewrite (ltb_false 200 160) by lra. change (sub (p:=RN) 200 50) with (200 - 50). rewrite (leb_true (200 - 50) 160) by lra.
    rewrite above_is, div_is by (cbn [sub RN]; lra). rewrite (changed_far 160 201) by lra. rewrite (ltb_true 200 201) by lra.
    rewrite div_is by (cbn; lra). reflexivity.
  - assert (E1: excess 210 180 = 170) by (apply abs_is; lra). repeat constructor; cbn [fst snd]; try rewrite E1; try (rewrite (abs_is (210 - 180) 30) by lra); lra.
  - assert (E2: excess 180 160 = 145) by (apply abs_is; lra). repeat constructor; cbn [fst snd]; try rewrite E2; lra.
Qed.

(** Not all samples of the cooling phase are samples of cooling: if the reading that switches
    the heater off is the maximum itself, lines 42-43 end the first loop at once and the rise
    that follows is counted with its absolute value. Here the temperature reaches 206 degrees
    and every fall between two readings since then is slower than [hi], but the coefficient is
    above 9 * hi. *)
Definition falls_slowly (hi : R) (p q : R * res R) : Prop :=
  match snd p, snd q with
  | Ok a, Ok b => fst p < fst q /\ (b < a -> a - b <= hi * ((fst q - fst p) * excess a b))
  | _, _ => False
  end.
Theorem C91_cooling_refuted : exists start off cool again l c h hi,
  find_model (N:=RN) 200 50 start (off :: cool ++ again) = (l, Some (Ok (c, h))) /\
  ForallOrdPairs (falls_slowly hi) (off :: cool) /\ 0 < hi /\ 9 * hi < c.
Proof.
  assert (E1: excess 199 203 = 176) by (apply abs_is; lra). assert (E2: excess 203 206 = 1795 / 10) by (apply abs_is; lra).
  assert (E3: excess 206 205 = 1805 / 10) by (apply abs_is; lra).
  exists (0, Ok 199), (1, Ok 200), [(2, Ok 203); (3, Ok 206); (103, Ok 205); (5000, Ok 150)], [(5001, Ok 160); (5002, Ok 201)].
  do 3 eexists. exists (1 / 1000). split; [|split; [|split]].
  - unfold find_model. cbn [snd fst app]. cbn [phase1].
    rewrite (leb_true 200 200) by lra. cbn [andb negb app]. cbv iota beta. cbn [phase2]. change (sub (p:=RN) 200 50) with (200 - 50).
    rewrite (changed_far 199 203) by lra. rewrite (leb_false 203 (200 - 50)) by lra. rewrite above_is, E1, div_is by lra. rewrite div_is by (cbn [sub RN]; lra).
    rewrite (changed_far 203 206) by lra. rewrite (leb_false 206 (200 - 50)) by lra. rewrite above_is, E2, div_is by lra. rewrite div_is by (cbn [sub RN]; lra).
    rewrite (changed_far 206 205) by lra. rewrite (leb_false 205 (200 - 50)) by lra. rewrite above_is, E3, div_is by lra. rewrite div_is by (cbn [sub RN]; lra).
    rewrite (changed_far 205 150) by lra. rewrite (leb_true 150 (200 - 50)) by lra.
    rewrite div_is by (cbn; lra). cbn [phase3]. change (sub (p:=RN) 200 50) with (200 - 50).
    rewrite (changed_far 205 160) by lra. rewrite (ltb_false 200 160) by lra. rewrite (leb_true (200 - 50) 160) by lra.
    rewrite above_is, div_is by (cbn [sub RN]; lra). rewrite (changed_far 160 201) by lra. rewrite (ltb_true 200 201) by lra.
    rewrite div_is by (cbn; lra). reflexivity.
  - assert (E4: excess 200 150 = 150) by (apply abs_is; lra). assert (E5: excess 203 150 = 1515 / 10) by (apply abs_is; lra).
    assert (E6: excess 206 150 = 153) by (apply abs_is; lra). assert (E7: excess 205 150 = 1525 / 10) by (apply abs_is; lra).
    repeat constructor; cbn [fst snd]; try rewrite E3; try rewrite E4; try rewrite E5; try rewrite E6; try rewrite E7; lra.
  - lra.
  - cbn [sub absn add ofZ RN Z.add Pos.add Pos.succ]. change (num RN) with R. rewrite (abs_is (199 - 203) 4), (abs_is (203 - 206) 3), (abs_is (206 - 205) 1) by lra. lra.
Qed.
Print Assumptions C91_cooling_refuted.

(** Whatever the measurements raise: the program calls deinit if and only if it ends without
    an exception, and then as its last call; all number types. *)
Theorem C91_deinit {N : PyNum} x y es r : model_main (N:=N) x y = (es, Some r) ->
  (r = Ok tt -> exists es0, es = es0 ++ [UDeinit]) /\ (forall e, r = Raise e -> ~ In UDeinit es).
Proof.
  assert (S: forall h l, ~ In UDeinit (sends (N:=N) h l)). { intros h l K. apply in_map_iff in K. destruct K as (a & K & _). discriminate K. }
  assert (S1: forall l, ~ In UDeinit (UFan true :: sends (N:=N) HeaterExtruder l)). { intros l [K|K]; [discriminate|exact (S _ _ K)]. }
  unfold model_main. intros H. destruct (find_model (ofZ 200) (ofZ 50) (fst x) (snd x)) as [lx [ox|]]; [|discriminate].
  destruct (find_model (ofZ 70) (ofZ 10) (fst y) (snd y)) as [ly oy].
  assert (S2: ~ In UDeinit ((UFan true :: sends (N:=N) HeaterExtruder lx) ++ UPower HeaterExtruder (ofZ 0) :: sends HeaterBed ly)).
  { intros K. apply in_app_or in K. destruct K as [K|[K|K]]; [exact (S1 _ K)|discriminate K|exact (S _ _ K)]. }
  repeat match type of H with context [match ?z with _ => _ end] => destruct z; try discriminate H end; apply pair_equal_spec in H; destruct H as [<- H]; injection H as <-;
    (split; [try discriminate|try discriminate]); intros; try assumption; try apply S1; try (eexists; reflexivity).
  all: match goal with |- exists es0, ?a ++ [?p; ?q; ?d] = _ => exists (a ++ [p; q]); exact (app_assoc a [p; q] [d]) end.
Qed.
Print Assumptions C91_deinit.
Example C91_deinit_ex : exists es, model_main (N:=RN) ((0, Ok 20), [(1, Raise KeyboardInterrupt)]) ((0, Ok 20), []) = (es, Some (Ok tt)) /\
  exists es', model_main (N:=RN) ((0, Ok 20), [(1, Raise ValueError)]) ((0, Ok 20), []) = (es', Some (Raise ValueError)).
Proof. eexists. split; [reflexivity|]. eexists. reflexivity. Qed.
