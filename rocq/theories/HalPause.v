(** The pauses hal.move asks for between the pulses of a straight move. *)
From Coq Require Import ZArith Bool Reals Lra Lia List Psatz.
From Flocq Require Import Core BinarySingleNaN.
From Verif Require Import PyBase PyNum PyFloatFacts Config Coordinates Pulses PulseSpec Decimal MachineArc ArcDone FloatRel LinearLaw LinearGen ArcFloat LinearFloat LinearFloatRun FloatWarp LinearFloatTime LinearFloatPause
  Dma DmaGpio DmaSpec DmaGpioProofs Hal HalSpec HalDrive.
From Coq Require Import List.
From Flocq Require Import Core.
Import ListNotations.
Local Open Scope R_scope.

(** The microsecond of a pulse. *)
Lemma stamp_close (t : f64) : fin t -> 0 <= val t <= 10000000 ->
  exists k, f_rnd (f_mul t (f_ofZ 1000000)) = Ok k /\ Rabs (IZR k - val t * 1000000) <= 51 / 100.
Proof.
  intros F B. destruct (f_ofZ_val 1000000) as [F6 V6]; [lia|].
  assert (Bd: Rabs (val t * val (f_ofZ 1000000)) <= big).
  { rewrite V6, Rabs_pos_eq by lra. apply Rle_trans with (bpow radix2 50); [simpl; lra|]. unfold big. apply bpow_le. lia. }
  destruct (f_mul_val t (f_ofZ 1000000) F F6 Bd) as [Fm Vm].
  exists (ZnearestE (val (f_mul t (f_ofZ 1000000)))). split; [now apply f_rnd_val|].
  assert (E := Znearest_half (fun x => negb (Z.even x)) (val (f_mul t (f_ofZ 1000000)))). rewrite Vm, V6 in *.
  assert (R := rd_ab (val t * 1000000) (10000000 * 1000000)). rewrite Rabs_pos_eq in R by lra.
  assert (R' := R ltac:(lra) ltac:(apply Rle_trans with (bpow radix2 0); [apply bpow_le; lia|simpl; lra])).
  assert (ep * (10000000 * 1000000) <= / 100) by (unfold ep; lra).
  apply Rabs_le_inv in R', E. apply Rabs_le. lra.
Qed.

Section Plan.
Variable acos : f64 -> f64.
Notation N := (F64 acos).
Variable cfg : config.
Hypothesis Hc : lin_cfg cfg.
Hypothesis H4 : forall m, (4 <= qat m (ppm cfg))%Z.
Variable delta : quad f64.
Variable v : f64.
Hypothesis Hm : fit_move cfg delta v.
Variable g : linear_gen N.
Variable kap : R.
Hypothesis P : fprof acos cfg delta g kap.
Variable c : f64.
Hypothesis Hap : ap 7 (-27) 94 c (2 * val (find_max (N:=N) (l_vel g)) / IZR (max_acceleration cfg)).
Notation W := (W (val (l_acc g)) (val (l_lin g)) (val c)).
Variable h : hal_config.
Hypothesis Hu : (0 <= pulse_us h)%Z.

Lemma W_range x : fine acos g c x -> 0 <= W x <= 10000000.
Proof.
  intros (I1 & N1 & R1). assert (B := Ba acos cfg delta g kap P). assert (BLb := BL acos cfg delta g kap P). assert (BCb := BC acos cfg delta g kap P c Hap).
  split; [now apply W_nonneg|]. eapply Rle_trans; [apply W_le_T; auto; exact (fa acos g)|]. destruct (T_bounds (val (l_acc g)) (val (l_lin g)) (val c) B BLb BCb) as [_ T].
  eapply Rle_trans; [exact T|]. assert (MU := M_up acos cfg delta g kap P). unfold FloatWarp.M in MU. assert (A0 := ap0 acos cfg delta g kap P).
  apply Rle_trans with ((1 + 4 * ep) * (2 * (val (l_acc g) + val (l_lin g)))); [rewrite Rmult_comm; apply Rmult_le_compat_l; [unfold ep; lra|lra]|].
  apply Rle_trans with ((1 + 4 * ep) * (2 * 4500000)); [apply Rmult_le_compat_l; [unfold ep; lra|lra]|unfold ep; lra].
Qed.
Lemma frun_gaps r i l xs : frun acos cfg g c r i l xs -> fine acos g c r -> 0 <= r -> fbehind acos cfg g r i -> (forall m, (0 <= qat m i)%Z) ->
  exists tl, HalSpec.timed l tl /\ forall last, W r * 1000000 - 1 <= IZR last -> gaps h last tl.
Proof.
  intros H. induction H as [r i E|r i x am q l xs Fx X0 Lr Wa Hq Hx Hr IH]; intros Fr R0 Be I0.
  - exists []. split; [constructor|]. cbn. auto.
  - assert (Fn: fine acos g c (val x) /\ val x <= bpow radix2 58).
    { destruct Hx as [m0 Hx]. destruct (Hq m0) as [(_ & J & Ev)|(E & _)]; [|congruence]. rewrite <- Ev. destruct (tm_room acos cfg Hc delta v Hm g kap P c Hap m0 _ J) as (U1 & U2 & U3 & U4). split; [split; auto|exact U4]. }
    destruct Fn as [Fn U]. destruct (warp_val acos cfg delta g kap P c Hap x am Fx (conj X0 U) Wa) as [Fam Vam].
    assert (Wx := W_range _ Fn). rewrite <- Vam in Wx. destruct (stamp_close am Fam Wx) as (k & Ek & Ck). rewrite Vam in Ck. apply Rabs_le_inv in Ck.
    destruct IH as (tl & T & G); [exact Fn|exact X0|eapply fbehind_moved; eassumption| |].
    { intros m. rewrite qat_fmoved. specialize (I0 m). cbn [step_of]. destruct (qat m q); lia. }
    exists ((Pulses.Pulse q, k) :: tl). split.
    + apply (timed_pulse _ (am : N)); [|exact Ek|exact T]. exists q. split; [reflexivity|]. split; [exact Hx|]. intros m t' Et. destruct (Hq m) as [(E & _)|(E & _)]; congruence.
    + intros last Hl. cbn [gaps]. split.
      * destruct (fast acos cfg delta g kap P c Hap) as (m & EV & Vm).
        assert (X := x_step acos cfg Hc H4 delta v Hm g kap P m r i x am q Vm R0 Be I0 Hq Hx).
        assert (Wp := W_pause acos cfg Hc H4 delta g kap P c Hap m r (val x) EV Vm Fr Fn Lr X).
        apply lt_IZR. rewrite minus_IZR. change (IZR (2 ^ 26)) with 67108864. lra.
      * apply G. rewrite plus_IZR. assert (0 <= IZR (pulse_us h)) by now apply (IZR_le 0). lra.
Qed.
End Plan.

(** Straight moves: every pulse has its microsecond, and no pause reaches 2^26 of them. *)
Lemma line_gaps acos cfg h delta v g l : lin_cfg cfg -> (forall m, (4 <= qat m (ppm cfg))%Z) -> fit_move cfg delta v -> (0 <= pulse_us h)%Z ->
  emits (N:=F64 acos) cfg delta v g l -> exists tl, HalSpec.timed l tl /\ gaps h 0 tl.
Proof.
  intros Hc H4 Hm Hu He. destruct (emits_float_inv acos cfg Hc delta v Hm g l He) as (kap & c & l' & xs & -> & P & Ac & Hl).
  destruct (frun_gaps acos cfg Hc H4 delta v Hm g kap P c Ac h Hu _ _ _ _ Hl) as (tl & T & G).
  - exact (fine_0 acos cfg delta g kap P c Ac).
  - lra.
  - intros m K. destruct m; cbn in K; lia.
  - intros []; cbn; lia.
  - exists ((Pulses.Dir (invert_dirs cfg (l_dir g)), 0%Z) :: tl). split; [now constructor|]. cbn [gaps]. apply G.
    rewrite (W_0 _ _ _ (Ba acos cfg delta g kap P)). lra.
Qed.
