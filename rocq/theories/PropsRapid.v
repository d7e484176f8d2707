(** Property C62 in binary64. *)
From Coq Require Import ZArith Bool List Lia Reals Lra.
From Flocq Require Import Core BinarySingleNaN.
From Verif Require Import PyBase PyNum PyFloatFacts Config Coordinates Pulses PulseSpec GMachine MachineFloat LinearFloat LinearFloatRun LinearFloatLimit StraightRun RapidFloat ExampleBase PropsPosition PropsLinFloat.
From Coq Require Import List.
From Flocq Require Import Core.
Import ListNotations.
Local Open Scope R_scope.

(** C62 in binary64, for limits that are whole numbers of mm per second up to 1000 and
    displacements of at most 65 m along each axis: the velocity of a rapid move exceeds
    the limit of no axis by more than 0.00001 mm per minute; one mm per minute more
    would bring some axis to within 0.00001 mm per minute of its limit or beyond, or
    the velocity is the largest of the limits. *)
Theorem C62_rapid_float (acos : f64 -> f64) (cfg : config) (d : quad f64) :
  sec_limits cfg -> (forall m, kept (qat m d)) -> way d <> 0 ->
  exists v, rapid_velocity (N:=F64 acos) cfg d = Ok v /\
    (forall m, IZR v * (Rabs (val (qat m d)) / way d) <= IZR (qat m (max_velocity_min cfg)) + / 100000) /\
    ((exists m, IZR (qat m (max_velocity_min cfg)) - / 100000 < (IZR v + 1) * (Rabs (val (qat m d)) / way d)) \/
     v = quad_max (max_velocity_min cfg)).
Proof. exact (fun H => rapid_float acos cfg H d). Qed.
Print Assumptions C62_rapid_float.
Definition d62 : quad f64 := Quad (f_ofZ 3) (f_ofZ 0) (f_rnd10 (f_ofZ (-4))) (f_ofZ 0).
Example C62_rapid_float_ex (acos : f64 -> f64) :
  sec_limits default_config /\ (forall m, kept (qat m d62)) /\ way d62 <> 0 /\ rapid_velocity (N:=F64 acos) default_config d62 = Ok 750%Z.
Proof.
  assert (V: forall n, (Z.abs n <= 4)%Z -> fin (f_ofZ n) /\ val (f_ofZ n) = IZR n) by (intros n Hn; apply f_ofZ_val; lia).
  assert (E4: f_rnd10 (f_ofZ (-4)) = f_ofZ (-4)) by (apply B2SF_inj; vm_compute; reflexivity).
  split; [exact default_sec|]. split; [|split].
  - assert (X: forall n, (Z.abs n <= 4)%Z -> f_rnd10 (f_ofZ n) = f_ofZ n -> kept (f_ofZ n)).
    { intros n Hn E. destruct (V n Hn) as [F Vn]. split; [exact F|]. split; [exact E|]. rewrite Vn, <- abs_IZR. change (bpow radix2 16) with 65536. apply IZR_le. lia. }
    intros []; unfold d62; cbn [qat qx qy qz qe]; rewrite ?E4; apply X; try lia; apply B2SF_inj; vm_compute; reflexivity.
  - unfold way, d62, len2. cbn [qx qy qz qe]. rewrite E4. rewrite (proj2 (V 3%Z ltac:(lia))), (proj2 (V 0%Z ltac:(lia))), (proj2 (V (-4)%Z ltac:(lia))).
    intros H. apply sqrt_eq_0 in H; lra.
  - vm_compute. reflexivity.
Qed.
