(** Python numbers.

    [PyNum] lists the operations on Python floats used by the modelled code.
    Two instances are given: [F64], IEEE-754 binary64 as computed by Python on
    all supported platforms (built on Flocq), and [RN], exact real numbers,
    used for statements about geometry and physics.

    Simplifications:
    - Python int values that take part in float expressions are converted with
      [ofZ] first. Python converts them the same way for + - * and compares and
      divides exactly; the results agree for |n| <= 2^53.
    - [x ** 2] (pow(x, 2.0) of the C library) is taken as correctly rounded.
    - [acos] is an argument of the F64 instance: the accuracy of the C library is
      not specified. Values outside of [-1, 1] raise ValueError.
    - NaN has no sign or payload. *)
From Coq Require Import ZArith Bool Reals Lra Lia.
From Flocq Require Import Core BinarySingleNaN.
From Verif Require Import PyBase.

Record PyNum : Type := {
  num :> Type;
  ofZ : Z -> num;                              (* int -> float *)
  ofdec : bool -> Z -> nat -> num;             (* float('[-]digits/10^dec') *)
  add : num -> num -> num;
  sub : num -> num -> num;
  mul : num -> num -> num;
  sqr : num -> res num;                        (* x ** 2, OverflowError *)
  div : num -> num -> res num;                 (* ZeroDivisionError *)
  neg : num -> num;
  absn : num -> num;
  sqrtn : num -> res num;                      (* math.sqrt, ValueError *)
  ltb : num -> num -> bool;                    (* < *)
  leb : num -> num -> bool;                    (* <= *)
  eqb : num -> num -> bool;                    (* == *)
  copysign1 : num -> Z;                        (* math.copysign(1, x), as 1 or -1 *)
  copysign : num -> num -> num;                (* math.copysign(x, y) *)
  rnd : num -> res Z;                          (* round(x) *)
  rnd10 : num -> num;                          (* round(x, 10) *)
  trunc : num -> res Z;                        (* int(x) *)
  pin : num;                                   (* math.pi *)
  acosn : num -> res num                       (* math.acos *)
}.
Arguments ofZ {p}. Arguments ofdec {p}. Arguments add {p}. Arguments sub {p}.
Arguments mul {p}. Arguments sqr {p}. Arguments div {p}. Arguments neg {p}. Arguments absn {p}.
Arguments sqrtn {p}. Arguments ltb {p}. Arguments leb {p}. Arguments eqb {p}.
Arguments copysign1 {p}. Arguments copysign {p}. Arguments rnd {p}.
Arguments rnd10 {p}. Arguments trunc {p}. Arguments pin {p}. Arguments acosn {p}.

Declare Scope num_scope.
Delimit Scope num_scope with num.
Notation "x + y" := (add x y) : num_scope.
Notation "x - y" := (sub x y) : num_scope.
Notation "x * y" := (mul x y) : num_scope.
Notation "- x" := (neg x) : num_scope.
Notation "x <? y" := (ltb x y) : num_scope.
Notation "x <=? y" := (leb x y) : num_scope.
Notation "x =? y" := (eqb x y) : num_scope.

(** Python's min(a, b) and max(a, b): the first argument unless the second is
    strictly smaller (larger). *)
Definition pmin {N : PyNum} (a b : N) : N := if ltb b a then b else a.
Definition pmax {N : PyNum} (a b : N) : N := if ltb a b then b else a.

(* ------------------------------------------------------------------ *)
(** ** binary64 *)

Definition prec64 : Z := 53.
Definition emax64 : Z := 1024.
Lemma prec64_gt_0 : FLX.Prec_gt_0 prec64. Proof. reflexivity. Qed.
Lemma prec64_lt_emax : Prec_lt_emax prec64 emax64. Proof. reflexivity. Qed.
#[global] Existing Instance prec64_gt_0.
#[global] Existing Instance prec64_lt_emax.

Definition f64 : Type := binary_float prec64 emax64.

(** float(n) for an int n: nearest, ties to even. *)
Definition f_ofZ (n : Z) : f64 :=
  binary_normalize prec64 emax64 prec64_gt_0 prec64_lt_emax mode_NE n 0 false.

(** Nearest double of the fraction n/d, n > 0; overflow gives infinity. *)
Definition f_ratio_pos (s : bool) (n d : positive) : f64 :=
  SF2B
    (let '(mz, ez, lz) :=
       SpecFloat.SFdiv_core_binary prec64 emax64 (Zpos n) 0 (Zpos d) 0 in
     binary_round_aux prec64 emax64 mode_NE (xorb s false) mz ez lz)
    (proj1 (Bdiv_correct_aux prec64 emax64 prec64_gt_0 prec64_lt_emax
              mode_NE s n 0 false d 0)).

(** Nearest double of n/d with sign [s] (n >= 0); a zero keeps the sign. *)
Definition f_ratio (s : bool) (n : Z) (d : positive) : f64 :=
  match n with
  | Zpos p => f_ratio_pos s p d
  | _ => B754_zero s
  end.

(** Integer nearest to n/d, ties to even (d > 0). *)
Definition half_even (n d : Z) : Z :=
  let q := (n / d)%Z in
  match (2 * (n mod d) ?= d)%Z with
  | Lt => q
  | Gt => (q + 1)%Z
  | Eq => if Z.even q then q else (q + 1)%Z
  end.

(** Numerator and denominator of m * 2^e. *)
Definition pow2_num (m : positive) (e : Z) : Z := (Zpos m * 2 ^ (Z.max e 0))%Z.
Definition pow2_den (e : Z) : positive := Z.to_pos (2 ^ (Z.max (- e) 0)).

Definition cond_opp (s : bool) (n : Z) : Z := if s then (- n)%Z else n.

(** round(x): half-even; errors for inf and nan. *)
Definition f_rnd (x : f64) : res Z :=
  match x with
  | B754_zero _ => Ok 0%Z
  | B754_infinity _ => Raise OverflowError
  | B754_nan => Raise ValueError
  | B754_finite s m e _ =>
      Ok (cond_opp s (half_even (pow2_num m e) (Zpos (pow2_den e))))
  end.

(** int(x): towards zero; errors for inf and nan. *)
Definition f_trunc (x : f64) : res Z :=
  match x with
  | B754_zero _ => Ok 0%Z
  | B754_infinity _ => Raise OverflowError
  | B754_nan => Raise ValueError
  | B754_finite s m e _ =>
      Ok (cond_opp s (pow2_num m e / Zpos (pow2_den e))%Z)
  end.

Definition ten10 : positive := 10000000000%positive.

(** round(x, 10): the exact value is rounded to ten decimals (half-even), the
    decimal is converted back to the nearest double. Integral values, inf and
    nan are returned unchanged. *)
Definition f_rnd10 (x : f64) : f64 :=
  match x with
  | B754_finite s m e _ =>
      if (0 <=? e)%Z then x
      else f_ratio s (half_even (Zpos m * Zpos ten10) (Zpos (pow2_den e))) ten10
  | _ => x
  end.

Definition f_lt (x y : f64) : bool := Bltb x y.
Definition f_le (x y : f64) : bool := Bleb x y.
Definition f_eq (x y : f64) : bool := Beqb x y.

Definition f_add (x y : f64) : f64 := Bplus mode_NE x y.
Definition f_sub (x y : f64) : f64 := Bminus mode_NE x y.
Definition f_mul (x y : f64) : f64 := Bmult mode_NE x y.

(** x ** 2: an infinite result of a finite number is an OverflowError. *)
Definition f_sqr (x : f64) : res f64 :=
  let y := f_mul x x in
  if is_finite x && negb (is_finite y) then Raise OverflowError else Ok y.

Definition is_zero_f (x : f64) : bool :=
  match x with B754_zero _ => true | _ => false end.

(** x / y *)
Definition f_div (x y : f64) : res f64 :=
  if is_zero_f y then Raise ZeroDivisionError else Ok (Bdiv mode_NE x y).

(** math.sqrt: ValueError for negative numbers and -inf. *)
Definition f_sqrt (x : f64) : res f64 :=
  match x with
  | B754_finite true _ _ _ => Raise ValueError
  | B754_infinity true => Raise ValueError
  | _ => Ok (Bsqrt mode_NE x)
  end.

Definition f_one : f64 := f_ofZ 1.

Definition f_copysign1 (x : f64) : Z := if Bsign x then (-1)%Z else 1%Z.
Definition f_copysign (x y : f64) : f64 :=
  if Bsign y then Bopp (Babs x) else Babs x.

(** math.pi = 884279719003555 / 2^48. *)
Definition f_pi : f64 :=
  binary_normalize prec64 emax64 prec64_gt_0 prec64_lt_emax mode_NE 884279719003555 (-48) false.

(** float('[-]n/10^dec'): correctly rounded. *)
Definition f_ofdec (s : bool) (n : Z) (dec : nat) : f64 :=
  f_ratio s n (Z.to_pos (10 ^ Z.of_nat dec)).

(** math.acos with its domain check; [acos] is the C library's function. *)
Definition f_acos (acos : f64 -> f64) (x : f64) : res f64 :=
  if f_lt f_one x || f_lt x (Bopp f_one) then Raise ValueError else Ok (acos x).

Definition F64 (acos : f64 -> f64) : PyNum := {|
  num := f64;
  ofZ := f_ofZ; ofdec := f_ofdec;
  add := f_add; sub := f_sub; mul := f_mul; sqr := f_sqr; div := f_div;
  neg := Bopp; absn := Babs; sqrtn := f_sqrt;
  ltb := f_lt; leb := f_le; eqb := f_eq;
  copysign1 := f_copysign1; copysign := f_copysign;
  rnd := f_rnd; rnd10 := f_rnd10; trunc := f_trunc;
  pin := f_pi; acosn := f_acos acos |}.

(* ------------------------------------------------------------------ *)
(** ** Exact reals

    All operations exact. round(x, 10) is the identity: this instance
    describes the program without any of the roundings caused by the finite
    number format (including the ten-decimals rounding used against noise);
    round(x) and int(x), which make integers out of numbers, are kept. *)
Definition Rltb (x y : R) : bool := if Rlt_dec x y then true else false.
Definition Rleb (x y : R) : bool := if Rle_dec x y then true else false.
Definition Reqb (x y : R) : bool := if Req_EM_T x y then true else false.

Definition RN : PyNum := {|
  num := R;
  ofZ := IZR;
  ofdec := fun s n dec => ((if s then -1 else 1) * (IZR n / 10 ^ dec))%R;
  add := Rplus; sub := Rminus; mul := Rmult; sqr := fun x => Ok (x * x)%R;
  div := fun x y => if Req_EM_T y 0 then Raise ZeroDivisionError else Ok (x / y)%R;
  neg := Ropp; absn := Rabs;
  sqrtn := fun x => if Rlt_dec x 0 then Raise ValueError else Ok (sqrt x);
  ltb := Rltb; leb := Rleb; eqb := Reqb;
  copysign1 := fun x => if Rlt_dec x 0 then (-1)%Z else 1%Z;
  copysign := fun x y => if Rlt_dec y 0 then (- Rabs x)%R else Rabs x;
  rnd := fun x => Ok (ZnearestE x);
  rnd10 := fun x => x;
  trunc := fun x => Ok (Ztrunc x);
  pin := PI;
  acosn := fun x => if Rlt_dec 1 x then Raise ValueError
                    else if Rlt_dec x (-1) then Raise ValueError
                    else Ok (acos x) |}.
