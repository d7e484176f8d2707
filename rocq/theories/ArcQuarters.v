(** Where an arc ends, on integers: the steps counted quarter by quarter, walked from
    the start by __circular_helper (cnc/pulses.py:582-597), lead to the end. *)
From Coq Require Import ZArith Bool Lia List.
From Verif Require Import PyBase PyNum Config Coordinates Pulses ArcRun.
From Coq Require Import List.
Import ListNotations.
Local Open Scope Z_scope.

(* ---------- quarters on integers ---------- *)
(** The quarters of the plane in the order of the clock, from the second axis. *)
Definition quadrant (a b : Z) : Z :=
  if (0 <=? a) && (0 <? b) then 0 else if 0 <? a then 1 else if b <? 0 then 2 else 3.
Lemma quadrant_cases a b : a <> 0 \/ b <> 0 ->
  (quadrant a b = 0 /\ 0 <= a /\ 0 < b) \/ (quadrant a b = 1 /\ 0 < a /\ b <= 0) \/
  (quadrant a b = 2 /\ a <= 0 /\ b < 0) \/ (quadrant a b = 3 /\ a < 0 /\ 0 <= b).
Proof.
  intros H. unfold quadrant. destruct (Z.leb_spec 0 a), (Z.ltb_spec 0 b), (Z.ltb_spec 0 a), (Z.ltb_spec b 0); cbn [andb]; lia.
Qed.
Lemma qi01 R a b c d : quarter_iterations 0 1 R R a b c d = (0 + (R - a) + (R - c), 0 + b + d)%Z.
Proof. reflexivity. Qed.
Lemma qi02 R a b c d : quarter_iterations 0 2 R R a b c d = (0 + (R - a) + R + c, 0 + b + R + (R - d))%Z.
Proof. reflexivity. Qed.
Lemma qi03 R a b c d : quarter_iterations 0 3 R R a b c d = (0 + (R - a) + R + R + (R - c), 0 + b + R + R + d)%Z.
Proof. reflexivity. Qed.
Lemma qi12 R a b c d : quarter_iterations 1 2 R R a b c d = (0 + a + c, 0 + (R - b) + (R - d))%Z.
Proof. reflexivity. Qed.
Lemma qi13 R a b c d : quarter_iterations 1 3 R R a b c d = (0 + a + R + (R - c), 0 + (R - b) + R + d)%Z.
Proof. reflexivity. Qed.
Lemma qi14 R a b c d : quarter_iterations 1 4 R R a b c d = (0 + a + R + R + c, 0 + (R - b) + R + R + (R - d))%Z.
Proof. reflexivity. Qed.
Lemma qi23 R a b c d : quarter_iterations 2 3 R R a b c d = (0 + (R - a) + (R - c), 0 + b + d)%Z.
Proof. reflexivity. Qed.
Lemma qi24 R a b c d : quarter_iterations 2 4 R R a b c d = (0 + (R - a) + R + c, 0 + b + R + (R - d))%Z.
Proof. reflexivity. Qed.
Lemma qi25 R a b c d : quarter_iterations 2 5 R R a b c d = (0 + (R - a) + R + R + (R - c), 0 + b + R + R + d)%Z.
Proof. reflexivity. Qed.
Lemma qi34 R a b c d : quarter_iterations 3 4 R R a b c d = (0 + a + c, 0 + (R - b) + (R - d))%Z.
Proof. reflexivity. Qed.
Lemma qi35 R a b c d : quarter_iterations 3 5 R R a b c d = (0 + a + R + (R - c), 0 + (R - b) + R + d)%Z.
Proof. reflexivity. Qed.
Lemma qi36 R a b c d : quarter_iterations 3 6 R R a b c d = (0 + a + R + R + c, 0 + (R - b) + R + R + (R - d))%Z.
Proof. reflexivity. Qed.

(** Directions at the start. *)
Definition dir_a_of (rot : rotation) (a b : Z) : Z :=
  match rot with
  | CW => if (0 <? b) || ((b =? 0) && (a <? 0)) then 1 else -1
  | CCW => if (0 <? b) || ((b =? 0) && (0 <? a)) then -1 else 1
  end.
Definition dir_b_of (rot : rotation) (a b : Z) : Z :=
  match rot with
  | CW => if (a <? 0) || ((a =? 0) && (b <? 0)) then 1 else -1
  | CCW => if (0 <? a) || ((a =? 0) && (b <? 0)) then 1 else -1
  end.
Definition turn (rot : rotation) (R i : Z) : Z := match rot with CW => i | CCW => 4 * R - i end.

Ltac bools := repeat match goal with
  | |- context [Z.ltb ?x ?y] => destruct (Z.ltb_spec x y)
  | |- context [Z.eqb ?x ?y] => destruct (Z.eqb_spec x y)
  end; cbn [andb orb].
Ltac helper_cases := unfold h_pos, circular_helper;
  repeat match goal with |- context [if Z.ltb ?x ?y then _ else _] => destruct (Z.ltb_spec x y) end; cbn [fst snd].

Lemma quarters_net rot R sa sb ea eb qs qe ia ib : Z.abs sa <= R -> Z.abs sb <= R -> Z.abs ea <= R -> Z.abs eb <= R ->
  sa <> 0 \/ sb <> 0 -> ea <> 0 \/ eb <> 0 -> (sb = 0 -> Z.abs sa = R) -> (sa = 0 -> Z.abs sb = R) -> qs = quadrant sa sb -> quadrant ea eb <> qs ->
  qe = (if quadrant ea eb <? qs then quadrant ea eb + 4 else quadrant ea eb) ->
  quarter_iterations qs qe R R (Z.abs sa) (Z.abs sb) (Z.abs ea) (Z.abs eb) = (ia, ib) ->
  (0 <= turn rot R ia <= 4 * R /\ h_pos sa R (dir_a_of rot sa sb) (turn rot R ia) = ea) /\
  (0 <= turn rot R ib <= 4 * R /\ h_pos sb R (dir_b_of rot sa sb) (turn rot R ib) = eb).
Proof.
  intros A1 A2 A3 A4 Hs He Z1 Z2 Qs Qe E H.
  destruct (quadrant_cases sa sb Hs) as [(Q & S1 & S2)|[(Q & S1 & S2)|[(Q & S1 & S2)|(Q & S1 & S2)]]];
  destruct (quadrant_cases ea eb He) as [(P & T1 & T2)|[(P & T1 & T2)|[(P & T1 & T2)|(P & T1 & T2)]]]; rewrite Q in Qs; rewrite P in Qe, E; subst qs;
  try (exfalso; apply Qe; reflexivity); cbn in E; subst qe; clear Q P Qe;
  first [rewrite qi01 in H|rewrite qi02 in H|rewrite qi03 in H|rewrite qi12 in H|rewrite qi13 in H|rewrite qi14 in H
        |rewrite qi23 in H|rewrite qi24 in H|rewrite qi25 in H|rewrite qi34 in H|rewrite qi35 in H|rewrite qi36 in H];
  injection H as <- <-; unfold turn, dir_a_of, dir_b_of; destruct rot; (split; (split; [lia|])); bools; try lia; helper_cases; lia.
Qed.

(** Inside one quarter, in the order of the clock. *)
Lemma quarter_net rot R sa sb ea eb : Z.abs sa <= R -> Z.abs sb <= R -> Z.abs ea <= R -> Z.abs eb <= R ->
  sa <> 0 \/ sb <> 0 -> ea <> 0 \/ eb <> 0 -> (sb = 0 -> Z.abs sa = R) -> (sa = 0 -> Z.abs sb = R) -> quadrant ea eb = quadrant sa sb ->
  ea * ea + eb * eb = sa * sa + sb * sb -> 0 < ea * sb - eb * sa ->
  (0 <= turn rot R (Z.abs (sa - ea)) <= 4 * R /\ h_pos sa R (dir_a_of rot sa sb) (turn rot R (Z.abs (sa - ea))) = ea) /\
  (0 <= turn rot R (Z.abs (sb - eb)) <= 4 * R /\ h_pos sb R (dir_b_of rot sa sb) (turn rot R (Z.abs (sb - eb))) = eb).
Proof.
  intros A1 A2 A3 A4 Hs He Z1 Z2 Q C X.
  assert (K: (0 <= sa /\ 0 < sb /\ 0 <= ea /\ 0 < eb /\ sa <= ea /\ eb <= sb) \/ (0 < sa /\ sb <= 0 /\ 0 < ea /\ eb <= 0 /\ ea <= sa /\ eb <= sb) \/
             (sa <= 0 /\ sb < 0 /\ ea <= 0 /\ eb < 0 /\ ea <= sa /\ sb <= eb) \/ (sa < 0 /\ 0 <= sb /\ ea < 0 /\ 0 <= eb /\ sa <= ea /\ sb <= eb)).
  { destruct (quadrant_cases sa sb Hs) as [(P & S1 & S2)|[(P & S1 & S2)|[(P & S1 & S2)|(P & S1 & S2)]]];
    destruct (quadrant_cases ea eb He) as [(P' & T1 & T2)|[(P' & T1 & T2)|[(P' & T1 & T2)|(P' & T1 & T2)]]]; try (exfalso; lia).
    - left. destruct (Z.le_gt_cases sa ea), (Z.le_gt_cases eb sb); try (exfalso; nia). lia.
    - right. left. destruct (Z.le_gt_cases ea sa), (Z.le_gt_cases eb sb); try (exfalso; nia). lia.
    - right. right. left. destruct (Z.le_gt_cases ea sa), (Z.le_gt_cases sb eb); try (exfalso; nia). lia.
    - right. right. right. destruct (Z.le_gt_cases sa ea), (Z.le_gt_cases sb eb); try (exfalso; nia). lia. }
  clear Q C X. unfold turn, dir_a_of, dir_b_of. destruct K as [K|[K|[K|K]]]; destruct rot; (split; (split; [lia|])); bools; try lia; helper_cases; lia.
Qed.
(** Once round. *)
Lemma circle_net rot R sa sb : Z.abs sa <= R -> Z.abs sb <= R ->
  h_pos sa R (dir_a_of rot sa sb) (4 * R) = sa /\ h_pos sb R (dir_b_of rot sa sb) (4 * R) = sb.
Proof.
  intros A B. split; apply helper_full; auto; unfold dir_a_of, dir_b_of; destruct rot; match goal with |- context [if ?c then _ else _] => destruct c end; auto.
Qed.
