(** Properties C05-C07: numeric words and coordinates (cnc/gcode.py,
    cnc/coordinates.py), over IEEE binary64. *)
From Coq Require Import String Ascii ZArith Bool Reals Lra Lia List.
From Flocq Require Import Core BinarySingleNaN.
From Verif Require Import PyBase PyNum PyFloatFacts GCode GCodeSpec Config Coordinates GMachine WordFacts.
From Coq Require Import List.
From Flocq Require Import Core.
Import ListNotations.

(** C05. A word whose literal denotes the real number x (LiteralValue, see
    GCodeSpec.v) is read as the double nearest to x, times the unit factor. *)
Theorem C05_value (acos : f64 -> f64) (g : gcode) (k : ascii) (lit : text) (x : R)
        (default multiply : f64) :
  lookup g k = Some lit -> LiteralValue lit x -> (Rabs x <= bpow radix2 1000)%R ->
  exists y : f64, get (N:=F64 acos) g k default multiply = Ok (Bmult mode_NE y multiply)
    /\ is_finite y = true
    /\ B2R y = round radix2 (FLT_exp (-1074) 53) ZnearestE x.
Proof. exact (get_value acos g k lit x default multiply). Qed.
Print Assumptions C05_value.
Example C05_value_ex :
  lookup [("G"%char, tx "1"); ("X"%char, tx "-1.50")] "X" = Some (tx "-1.50")
  /\ LiteralValue (tx "-1.50") (- (3 / 2)) /\ (Rabs (- (3 / 2)) <= bpow radix2 1000)%R.
Proof.
  split; [reflexivity|]. split.
  - replace (- (3 / 2))%R with (- (int_value 0 (tx "1") + int_value 0 (tx "50") / 10 ^ (List.length (tx "50"))))%R
      by (simpl; unfold digit_value; simpl; field).
    apply lv_minus. apply (nv_frac (tx "1") (tx "50")); [discriminate|].
    repeat (apply Forall_cons; [vm_compute; tauto|]). apply Forall_nil.
  - rewrite Rabs_Ropp, Rabs_pos_eq by lra. apply Rle_trans with (bpow radix2 1); [simpl; lra|].
    apply bpow_le. lia.
Qed.

(** Every other literal the parser accepts is a ValueError. *)
Theorem C05_no_value (acos : f64 -> f64) (g : gcode) (k : ascii) (lit : text)
        (default multiply : f64) :
  lookup g k = Some lit -> (~ exists x, LiteralValue lit x) ->
  get (N:=F64 acos) g k default multiply = Raise ValueError.
Proof. exact (get_badliteral acos g k lit default multiply). Qed.
Print Assumptions C05_no_value.
Example C05_no_value_ex : ~ exists x, LiteralValue (tx "1.2.3") x.
Proof. apply decimal_none. reflexivity. Qed.

(** An absent word has the default value. *)
Theorem C05_missing (acos : f64 -> f64) (g : gcode) (k : ascii) (default multiply : f64) :
  ~ In k (map fst g) -> get (N:=F64 acos) g k default multiply = Ok default.
Proof. exact (get_absent acos g k default multiply). Qed.
Print Assumptions C05_missing.
Example C05_missing_ex : ~ In "F"%char (map fst [("G"%char, tx "1"); ("X"%char, tx "1.5")]).
Proof. simpl. intros [H|[H|[]]]; discriminate. Qed.

(** A literal denotes at most one number. *)
Theorem C05_value_is_unique (lit : text) (x y : R) :
  LiteralValue lit x -> LiteralValue lit y -> x = y.
Proof. exact (LiteralValue_unique lit x y). Qed.
Print Assumptions C05_value_is_unique.
Example C05_value_is_unique_ex : LiteralValue (tx "+7") 7.
Proof.
  replace 7%R with (int_value 0 (tx "7")) by (simpl; unfold digit_value; simpl; ring).
  apply lv_plus. apply nv_int; [discriminate|]. repeat (apply Forall_cons; [vm_compute; tauto|]). apply Forall_nil.
Qed.

(** C06. The box test. *)
Theorem C06_closed_box (acos : f64 -> f64) (c p1 p2 : quad f64) :
  finq c -> finq p1 -> finq p2 ->
  is_in_aabb (N:=F64 acos) c p1 p2 = true <->
  (Rmin (B2R (qx p1)) (B2R (qx p2)) <= B2R (qx c) <= Rmax (B2R (qx p1)) (B2R (qx p2)))%R /\
  (Rmin (B2R (qy p1)) (B2R (qy p2)) <= B2R (qy c) <= Rmax (B2R (qy p1)) (B2R (qy p2)))%R /\
  (Rmin (B2R (qz p1)) (B2R (qz p2)) <= B2R (qz c) <= Rmax (B2R (qz p1)) (B2R (qz p2)))%R.
Proof. exact (is_in_aabb_box acos c p1 p2). Qed.
Print Assumptions C06_closed_box.
Example C06_closed_box_ex (acos : f64 -> f64) :
  is_in_aabb (N:=F64 acos) (Quad (f_ofZ 5) (f_ofZ 0) (f_ofZ (-3)) (f_ofZ 77))
    (Quad (f_ofZ 5) (f_ofZ 9) (f_ofZ (-4)) (f_ofZ 0)) (Quad (f_ofZ 1) (f_ofZ (-1)) (f_ofZ 0) (f_ofZ 0)) = true
  /\ is_in_aabb (N:=F64 acos) (Quad (f_ofZ 5) (f_ofZ 0) (f_ofZ 1) (f_ofZ 77))
    (Quad (f_ofZ 5) (f_ofZ 9) (f_ofZ (-4)) (f_ofZ 0)) (Quad (f_ofZ 1) (f_ofZ (-1)) (f_ofZ 0) (f_ofZ 0)) = false.
Proof. split; vm_compute; reflexivity. Qed.

(** C07. Components of Coordinates objects: nearest double of a ten-decimals
    number within half a unit of the given value, unchanged by repetition. *)
Theorem C07_ten_decimals (x : f64) : is_finite x = true ->
  is_finite (f_rnd10 x) = true /\
  exists k : Z, (Rabs (IZR k / 10000000000 - B2R x) <= / 2 / 10000000000)%R /\
    B2R (f_rnd10 x) = round radix2 (FLT_exp (-1074) 53) ZnearestE (IZR k / 10000000000).
Proof. exact (rnd10_spec x). Qed.
Print Assumptions C07_ten_decimals.
Example C07_ten_decimals_ex : is_finite (f_ratio false 1 3) = true
  /\ B2SF (f_rnd10 (f_ratio false 1 3)) = B2SF (f_ratio false 3333333333 10000000000)
  /\ B2SF (f_rnd10 (f_ratio false 1 3)) <> B2SF (f_ratio false 1 3).
Proof. repeat split; try (vm_compute; reflexivity). vm_compute. discriminate. Qed.

Theorem C07_coordinates (acos : f64 -> f64) (x y z e : f64) :
  let c := coords (N:=F64 acos) x y z e in
  qx c = f_rnd10 x /\ qy c = f_rnd10 y /\ qz c = f_rnd10 z /\ qe c = f_rnd10 e /\
  coords (N:=F64 acos) (qx c) (qy c) (qz c) (qe c) = c.
Proof. exact (coords_idem acos x y z e). Qed.
Print Assumptions C07_coordinates.
Example C07_coordinates_ex (acos : f64 -> f64) :
  B2SF (qx (coords (N:=F64 acos) (f_ratio false 1 3) (f_ofZ 1) (f_ofZ 2) (f_ofZ 3))) <> B2SF (f_ratio false 1 3).
Proof. vm_compute. discriminate. Qed.

Theorem C07_idempotent (x : f64) : f_rnd10 (f_rnd10 x) = f_rnd10 x.
Proof. exact (f_rnd10_idem x). Qed.
Print Assumptions C07_idempotent.
Example C07_idempotent_ex : B2SF (f_rnd10 (f_ratio true 2 3)) <> B2SF (f_ratio true 2 3).
Proof. vm_compute. discriminate. Qed.
