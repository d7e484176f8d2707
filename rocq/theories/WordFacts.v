(** Facts about reading words (GCode.get) and about coordinates, C05-C07. *)
From Coq Require Import String Ascii ZArith Bool Reals Lra Lia List Psatz.
From Flocq Require Import Core BinarySingleNaN.
From Verif Require Import PyBase PyNum PyFloatFacts GCode GCodeSpec GCodeProofs Config Coordinates Pulses GMachine.
From Coq Require Import List.
Import ListNotations.

(* ---------- literals ---------- *)
Fixpoint intZ (acc : Z) (s : list ascii) : Z :=
  match s with [] => acc | c :: r => intZ (10 * acc + digit_val c)%Z r end.

Lemma digit_val_spec c : digit_value c = IZR (digit_val c).
Proof. reflexivity. Qed.

Lemma intZ_value s : forall acc, IZR (intZ acc s) = int_value (IZR acc) s.
Proof.
  induction s as [|c r IH]; intros acc; cbn [intZ int_value]; auto.
  rewrite IH. rewrite plus_IZR, mult_IZR. reflexivity.
Qed.

Lemma int_value_shift s : forall acc,
  (int_value acc s = acc * 10 ^ (length s) + int_value 0 s)%R.
Proof.
  induction s as [|c r IH]; intros acc; simpl; [ring|].
  rewrite IH. rewrite (IH (10 * 0 + digit_value c)%R). ring.
Qed.

Lemma digit_val_nonneg c : is_digit c = true -> (0 <= digit_val c)%Z.
Proof. unfold is_digit, digit_val. intros H. apply andb_prop in H. destruct H as [H _]. apply Nat.leb_le in H. lia. Qed.

Lemma intZ_nonneg s : forall acc, (0 <= acc)%Z -> Forall (fun c => In c digits) s -> (0 <= intZ acc s)%Z.
Proof.
  induction s as [|c r IH]; intros acc Ha H; cbn [intZ]; auto.
  apply Forall_cons_iff in H. destruct H as [H0 H]. apply IH; auto.
  apply is_digit_In, digit_val_nonneg in H0. lia.
Qed.

Lemma dot_eq c : is_dot c = true <-> c = "."%char.
Proof.
  split.
  - destruct c as [b0 b1 b2 b3 b4 b5 b6 b7].
    destruct b0, b1, b2, b3, b4, b5, b6, b7; vm_compute; intros H; try discriminate; reflexivity.
  - intros ->. reflexivity.
Qed.

Lemma scan_true s : forall nd n dec p,
  scan_digits s true nd n dec = Some p <->
  Forall (fun c => In c digits) s /\ p = (intZ n s, (dec + length s)%nat) /\ (nd + length s <> 0)%nat.
Proof.
  induction s as [|c r IH]; intros nd n dec p; simpl.
  - destruct (Nat.eqb_spec nd 0); split.
    + discriminate.
    + intros (_ & _ & H). exfalso. lia.
    + intros E. injection E as <-. rewrite Nat.add_0_r. auto with zarith.
    + intros (_ & -> & _). rewrite Nat.add_0_r. reflexivity.
  - destruct (is_digit c) eqn:Ed.
    + rewrite IH. apply is_digit_In in Ed. split.
      * intros (H1 & -> & H3). split; [constructor; auto|]. split; [f_equal; lia|lia].
      * intros (H1 & -> & H3). apply Forall_cons_iff in H1; destruct H1 as [H2 H1]. split; auto. split; [f_equal; lia|lia].
    + rewrite andb_false_r. split; [discriminate|]. intros (H & _). apply Forall_cons_iff in H; destruct H as [H2 H].
      apply is_digit_In in H2. congruence.
Qed.

Lemma scan_false s : forall nd n p,
  scan_digits s false nd n 0 = Some p <->
  (Forall (fun c => In c digits) s /\ p = (intZ n s, 0%nat) /\ (nd + length s <> 0)%nat) \/
  (exists a b, s = a ++ "."%char :: b /\ Forall (fun c => In c digits) (a ++ b) /\
     p = (intZ n (a ++ b), length b) /\ (nd + length (a ++ b) <> 0)%nat).
Proof.
  induction s as [|c r IH]; intros nd n p; simpl.
  - destruct (Nat.eqb_spec nd 0); split.
    + discriminate.
    + intros [(_ & _ & H)|(a & b & H & _)]; [exfalso; lia|destruct a; discriminate].
    + intros E. injection E as <-. left. auto with zarith.
    + intros [(_ & -> & _)|(a & b & H & _)]; [reflexivity|destruct a; discriminate].
  - destruct (is_digit c) eqn:Ed.
    + rewrite IH. apply is_digit_In in Ed. split.
      * intros [(H1 & -> & H3)|(a & b & -> & H1 & -> & H3)].
        -- left. split; [constructor; auto|]. split; [reflexivity|lia].
        -- right. exists (c :: a), b. split; [reflexivity|]. split; [simpl; constructor; auto|].
           split; [reflexivity|simpl; lia].
      * intros [(H1 & -> & H3)|(a & b & E & H1 & -> & H3)].
        -- left. apply Forall_cons_iff in H1; destruct H1 as [H2 H1]. split; auto. split; [reflexivity|lia].
        -- destruct a as [|c' a]; simpl in E.
           { injection E as -> _. vm_compute in Ed. exfalso.
             repeat destruct Ed as [Ed|Ed]; try discriminate Ed; contradiction. }
           injection E as <- ->. simpl in *. apply Forall_cons_iff in H1; destruct H1 as [H2 H1]. right. exists a, b.
           repeat split; auto.
    + destruct (is_dot c) eqn:Edot; simpl.
      * rewrite scan_true. apply dot_eq in Edot. subst c. split.
        -- intros (H1 & -> & H3). right. exists [], r. auto.
        -- intros [(H1 & _)|(a & b & E & H1 & -> & H3)].
           ++ apply Forall_cons_iff in H1; destruct H1 as [H2 H1]. apply is_digit_In in H2. discriminate.
           ++ destruct a as [|c' a]; simpl in E.
              { injection E as ->. auto. }
              injection E as <- ->. apply Forall_cons_iff in H1; destruct H1 as [H2 H1]. apply is_digit_In in H2. discriminate.
      * split; [discriminate|].
        intros [(H1 & _)|(a & b & E & H1 & -> & H3)].
        -- apply Forall_cons_iff in H1; destruct H1 as [H2 H1]. apply is_digit_In in H2. congruence.
        -- destruct a as [|c' a]; simpl in E.
           { injection E as -> ->. discriminate Edot. }
           injection E as <- ->. apply Forall_cons_iff in H1; destruct H1 as [H2 H1]. apply is_digit_In in H2. congruence.
Qed.

Lemma scan_value s p : scan_digits s false 0 0 0 = Some p ->
  (0 <= fst p)%Z /\ NumberValue s (IZR (fst p) / 10 ^ (snd p))%R.
Proof.
  rewrite scan_false. intros [(H1 & -> & H3)|(a & b & -> & H1 & -> & H3)]; simpl fst; simpl snd.
  - split; [apply intZ_nonneg; auto; lia|].
    rewrite intZ_value. replace (int_value 0 s / 10 ^ 0)%R with (int_value 0 s) by (simpl; field).
    constructor; auto. destruct s; simpl in *; [lia|discriminate].
  - split; [apply intZ_nonneg; auto; lia|].
    rewrite intZ_value.
    assert (E: (int_value 0 (a ++ b) / 10 ^ length b = int_value 0 a + int_value 0 b / 10 ^ length b)%R).
    { assert (Ha: forall acc, int_value acc (a ++ b) = int_value (int_value acc a) b).
      { clear. induction a as [|c r IH]; intros acc; simpl; auto. }
      rewrite Ha, int_value_shift. field. apply pow_nonzero. lra. }
    rewrite E. constructor; auto. destruct (a ++ b); simpl in *; [lia|discriminate].
Qed.

Lemma value_scan s x : NumberValue s x -> exists p, scan_digits s false 0 0 0 = Some p.
Proof.
  intros H. inversion H; subst.
  - eexists. apply scan_false. left. repeat split; eauto. destruct s; simpl; [tauto|lia].
  - eexists. apply scan_false. right. exists a, b. repeat split; eauto. destruct (a ++ b); simpl; [tauto|lia].
Qed.

(** Values are unique. *)
Lemma NumberValue_fun s x : NumberValue s x -> exists p, scan_digits s false 0 0 0 = Some p
   /\ x = (IZR (fst p) / 10 ^ (snd p))%R.
Proof.
  intros H. inversion H; subst.
  - exists (intZ 0 s, 0%nat). split.
    + apply scan_false. left. repeat split; auto. destruct s; simpl; [tauto|lia].
    + simpl. rewrite intZ_value. field.
  - exists (intZ 0 (a ++ b), length b). split.
    + apply scan_false. right. exists a, b. repeat split; auto. destruct (a ++ b); simpl; [tauto|lia].
    + simpl. rewrite intZ_value.
      assert (Ha: forall acc, int_value acc (a ++ b) = int_value (int_value acc a) b).
      { clear. induction a as [|c r IH]; intros acc; simpl; auto. }
      rewrite Ha, (int_value_shift b (int_value 0 a)). field. apply pow_nonzero. lra.
Qed.

Definition sgn (s : bool) : R := if s then (-1)%R else 1%R.

Lemma is_sign_cases c : is_sign c = true -> c = "+"%char \/ c = "-"%char.
Proof.
  destruct c as [b0 b1 b2 b3 b4 b5 b6 b7].
  destruct b0, b1, b2, b3, b4, b5, b6, b7; vm_compute; intros H; try discriminate; tauto.
Qed.

Lemma NumberValue_nosign c r x : NumberValue (c :: r) x -> is_sign c = false.
Proof.
  intros H. destruct (is_sign c) eqn:E; auto. exfalso.
  apply value_scan in H. destruct H as (p & H). simpl in H.
  apply is_sign_cases in E. destruct E; subst c; simpl in H; discriminate.
Qed.

Lemma LiteralValue_decimal lit x : LiteralValue lit x ->
  exists s n d, decimal_of lit = Some (s, n, d) /\ (0 <= n)%Z /\ x = (sgn s * (IZR n / 10 ^ d))%R.
Proof.
  intros H. inversion H as [a y Hn E1 E2|a y Hn E1 E2|a y Hn E1 E2]; subst.
  - destruct (NumberValue_fun _ _ Hn) as ([n d] & Hs & ->). simpl.
    destruct lit as [|c r]; [discriminate Hs|].
    unfold decimal_of. rewrite (NumberValue_nosign _ _ _ Hn). rewrite Hs.
    exists false, n, d. split; auto. split; [apply (scan_value _ _ Hs)|]. unfold sgn. ring.
  - destruct (NumberValue_fun _ _ Hn) as ([n d] & Hs & ->). simpl.
    rewrite Hs. exists false, n, d. split; auto. split; [apply (scan_value _ _ Hs)|]. unfold sgn. ring.
  - destruct (NumberValue_fun _ _ Hn) as ([n d] & Hs & ->). simpl.
    rewrite Hs. exists true, n, d. split; auto. split; [apply (scan_value _ _ Hs)|]. unfold sgn. ring.
Qed.

Lemma decimal_LiteralValue lit s n d : decimal_of lit = Some (s, n, d) ->
  (0 <= n)%Z /\ LiteralValue lit (sgn s * (IZR n / 10 ^ d))%R.
Proof.
  unfold decimal_of. destruct lit as [|c r]; [discriminate|].
  destruct (is_sign c) eqn:Es.
  - destruct (scan_digits r false 0 0 0) as [[n' d']|] eqn:E; [|discriminate].
    intros E'. injection E' as <- <- <-.
    destruct (scan_value _ _ E) as (H1 & H2). simpl in H1, H2. split; auto.
    apply is_sign_cases in Es. destruct Es; subst c; simpl; unfold sgn.
    + rewrite Rmult_1_l. now constructor.
    + replace (-1 * (IZR n' / 10 ^ d'))%R with (- (IZR n' / 10 ^ d'))%R by ring. now constructor.
  - destruct (scan_digits (c :: r) false 0 0 0) as [[n' d']|] eqn:E; [|discriminate].
    intros E'. injection E' as <- <- <-.
    destruct (scan_value _ _ E) as (H1 & H2). simpl in H1, H2. split; auto.
    unfold sgn. rewrite Rmult_1_l. now constructor.
Qed.

Lemma decimal_none lit : decimal_of lit = None <-> ~ exists x, LiteralValue lit x.
Proof.
  split.
  - intros E (x & H). apply LiteralValue_decimal in H. destruct H as (s & n & d & H & _). congruence.
  - intros H. destruct (decimal_of lit) as [[[s n] d]|] eqn:E; auto. exfalso. apply H.
    apply decimal_LiteralValue in E. eexists. apply E.
Qed.

(** float() of a literal, binary64. *)
Lemma ofdec_val s n d : (0 <= n)%Z -> (Rabs (sgn s * (IZR n / 10 ^ d)) <= big)%R ->
  fin (f_ofdec s n d) /\ val (f_ofdec s n d) = rd (sgn s * (IZR n / 10 ^ d)).
Proof.
  intros Hn H. unfold f_ofdec.
  assert (E: IZR (Z.pos (Z.to_pos (10 ^ Z.of_nat d))) = (10 ^ d)%R).
  { rewrite Z2Pos.id by (apply Z.pow_pos_nonneg; lia). rewrite <- pow_IZR. reflexivity. }
  assert (Ha: (Rabs (sgn s * (IZR n / 10 ^ d)) = Rabs (IZR n / 10 ^ d))%R).
  { rewrite Rabs_mult. destruct s; unfold sgn.
    - rewrite (Rabs_left (-1)) by lra. ring.
    - rewrite Rabs_R1. ring. }
  destruct (f_ratio_val s n (Z.to_pos (10 ^ Z.of_nat d)) Hn) as (H1 & H2 & _).
  { rewrite E. lra. }
  rewrite E in H2. split; auto.
Qed.

Section F.
Variable acos : f64 -> f64.
Notation N := (F64 acos).

Lemma get_value g k lit x (d : N) (mul : N) :
  lookup g k = Some lit -> LiteralValue lit x -> (Rabs x <= big)%R ->
  exists y : f64, get (N:=N) g k d mul = Ok (f_mul y mul) /\ fin y /\ val y = rd x.
Proof.
  intros Hl Hv Hb. destruct (LiteralValue_decimal _ _ Hv) as (s & n & dd & Hd & Hn & ->).
  exists (f_ofdec s n dd). unfold get. rewrite Hl, Hd.
  destruct (ofdec_val s n dd Hn Hb). split; [reflexivity|]. split; assumption.
Qed.

Lemma get_badliteral g k lit (d : N) (mul : N) :
  lookup g k = Some lit -> (~ exists x, LiteralValue lit x) ->
  get (N:=N) g k d mul = Raise ValueError.
Proof.
  intros Hl Hv. unfold get. rewrite Hl. apply decimal_none in Hv. rewrite Hv. reflexivity.
Qed.

Lemma get_missing g k (d : N) (mul : N) :
  lookup g k = None -> get (N:=N) g k d mul = Ok d.
Proof. intros Hl. unfold get. now rewrite Hl. Qed.

Lemma lookup_none g k : ~ In k (map fst g) -> lookup g k = None.
Proof.
  induction g as [|[l v] r IH]; simpl; auto. intros H.
  destruct (Ascii.eqb_spec l k) as [->|Hn]; [exfalso; auto|]. apply IH. tauto.
Qed.
Lemma get_absent g k (d : N) (mul : N) :
  ~ In k (map fst g) -> get (N:=N) g k d mul = Ok d.
Proof. intros H. apply get_missing. now apply lookup_none. Qed.

Lemma LiteralValue_unique lit x y : LiteralValue lit x -> LiteralValue lit y -> x = y.
Proof.
  intros Hx Hy. apply LiteralValue_decimal in Hx, Hy.
  destruct Hx as (s & n & d & H & _ & ->). destruct Hy as (s' & n' & d' & H' & _ & ->). congruence.
Qed.

(* ---------- boxes ---------- *)
Definition finq (c : quad f64) : Prop := fin (qx c) /\ fin (qy c) /\ fin (qz c).

Lemma sorted2_box (x a b : f64) : fin x -> fin a -> fin b ->
  let '(lo, hi) := sorted2 (N:=N) a b in
  (negb (f_lt x lo) && negb (f_lt hi x) = true) <->
  (Rmin (val a) (val b) <= val x <= Rmax (val a) (val b))%R.
Proof.
  intros Hx Ha Hb. unfold sorted2. simpl ltb.
  destruct (f_lt b a) eqn:E.
  - apply f_lt_true in E; auto. rewrite Rmin_right, Rmax_left by lra.
    rewrite andb_true_iff, !negb_true_iff, !f_lt_false by assumption. tauto.
  - apply f_lt_false in E; auto. rewrite Rmin_left, Rmax_right by lra.
    rewrite andb_true_iff, !negb_true_iff, !f_lt_false by assumption. tauto.
Qed.

Lemma is_in_aabb_box (c p1 p2 : quad f64) : finq c -> finq p1 -> finq p2 ->
  is_in_aabb (N:=N) c p1 p2 = true <->
  (Rmin (val (qx p1)) (val (qx p2)) <= val (qx c) <= Rmax (val (qx p1)) (val (qx p2)))%R /\
  (Rmin (val (qy p1)) (val (qy p2)) <= val (qy c) <= Rmax (val (qy p1)) (val (qy p2)))%R /\
  (Rmin (val (qz p1)) (val (qz p2)) <= val (qz c) <= Rmax (val (qz p1)) (val (qz p2)))%R.
Proof.
  intros (Hcx & Hcy & Hcz) (H1x & H1y & H1z) (H2x & H2y & H2z). unfold is_in_aabb.
  assert (Bx := sorted2_box (qx c) (qx p1) (qx p2) Hcx H1x H2x).
  assert (By := sorted2_box (qy c) (qy p1) (qy p2) Hcy H1y H2y).
  assert (Bz := sorted2_box (qz c) (qz p1) (qz p2) Hcz H1z H2z).
  cbn [F64 num ltb] in *.
  destruct (sorted2 (N:=N) (qx p1) (qx p2)) as [xl xh].
  destruct (sorted2 (N:=N) (qy p1) (qy p2)) as [yl yh].
  destruct (sorted2 (N:=N) (qz p1) (qz p2)) as [zl zh].
  rewrite <- Bx, <- By, <- Bz.
  clear Bx By Bz. rewrite !andb_true_iff, !negb_true_iff.
  destruct (f_lt (qx c) xl), (f_lt (qy c) yl), (f_lt (qz c) zl),
           (f_lt xh (qx c)), (f_lt yh (qy c)), (f_lt zh (qz c)); simpl. all: intuition congruence.
Qed.

(* ---------- ten decimals ---------- *)
Lemma dec10_close x : (Rabs (IZR (dec10 x) / e10 - x) <= / 2 / e10)%R.
Proof.
  assert (H := ZnearestE_error (x * e10)). fold (dec10 x) in H.
  apply Rabs_le_inv in H. apply Rabs_le. unfold e10 in *. lra.
Qed.

Lemma rnd10_spec x : fin x -> fin (f_rnd10 x) /\
  exists k : Z, (Rabs (IZR k / e10 - val x) <= / 2 / e10)%R /\ val (f_rnd10 x) = rd (IZR k / e10).
Proof.
  intros H. destruct (f_rnd10_val x H) as (H1 & H2 & _). split; auto.
  exists (dec10 (val x)). split; [apply dec10_close|exact H2].
Qed.

Lemma coords_idem (x y z e : f64) :
  let c := coords (N:=N) x y z e in
  qx c = f_rnd10 x /\ qy c = f_rnd10 y /\ qz c = f_rnd10 z /\ qe c = f_rnd10 e /\
  coords (N:=N) (qx c) (qy c) (qz c) (qe c) = c.
Proof. unfold coords. simpl. rewrite !f_rnd10_idem. auto 10. Qed.

End F.
